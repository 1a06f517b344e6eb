(** Reading back the rows written; schemas of databases; attached databases. *)
From Coq Require Import String.
From Verif Require Import Base SpecStream SpecHistory SpecArray ModelBitBuffer ModelWriter ModelReader ModelArray ModelSchema ModelJson SpecSchema ModelMask
  ModelSql SpecSql ObjectProofs SerialProofs CreatorProofs SqlProofs.
Open Scope list_scope.

Lemma NoDup_app_single {A} (l : list A) x : NoDup l -> ~ In x l -> NoDup (l ++ [x]).
Proof.
  intros H Hx. induction H as [|y l Hy _ IH]; cbn; [constructor; [intros []|constructor]|]. constructor.
  - intros Hi. apply in_app_or in Hi. destruct Hi as [Hi|[Hi|[]]]; [contradiction|]. subst y. apply Hx. left. reflexivity.
  - apply IH. intros Hi. apply Hx. right. exact Hi.
Qed.
Lemma NoDup_fst_fun {A B} (l : list (A * B)) a b b' : NoDup (map fst l) -> In (a, b) l -> In (a, b') l -> b = b'.
Proof.
  induction l as [|[x y] l IH]; [intros _ []|]. cbn [map fst]. intros H. inversion H as [|? ? H1 H2]; subst. intros [E1|H3] [E2|H4].
  - congruence.
  - injection E1 as -> ->. contradiction H1. apply in_map_iff. exists (a, b'). split; [reflexivity|exact H4].
  - injection E2 as -> ->. contradiction H1. apply in_map_iff. exists (a, b). split; [reflexivity|exact H3].
  - exact (IH H2 H3 H4).
Qed.

Section Rows.
Context (s : schema) (depth : nat) {Db : Type} (run : list Z -> list value -> Db -> outcome (list (list value)) Db) (ce : Db -> option exn).

Lemma known_dec t columns : known_columns t columns \/ ~ known_columns t columns.
Proof.
  destruct columns as [l|]; [|left; exact I]. cbn. destruct (Forall_dec (fun n => In n (map col_name (t_columns t))) (fun n => in_dec (list_eq_dec Z.eq_dec) n _) l) as [H|H].
  - left. apply Forall_forall. exact H.
  - right. intros H'. apply H. apply Forall_forall. exact H'.
Qed.

Lemma write_current t rows columns c c' : NoDup (map col_name (t_columns t)) -> write_rows s depth t run ce rows columns c = (Ok tt, c') ->
  known_columns t columns /\ exists vals, Forall2 (handed_row s depth t columns) rows vals /\
    ran run (map (fun v => (insert_text (full_name t) (wanted_names t columns), v)) vals) (current c) (current c').
Proof.
  intros Hd E. destruct (known_dec t columns) as [Hk|Hk]; [|rewrite write_unknown in E by assumption; discriminate E]. split; [exact Hk|].
  destruct (c_tx c) as [d|] eqn:Hc.
  - destruct (write_within s depth run ce t rows columns c d _ _ Hd Hk Hc E) as (_ & vals & H1 & _ & d' & H2 & H3). exists vals. split; [exact H1|].
    unfold current. rewrite Hc, H2. exact H3.
  - destruct (write_all s depth run ce t rows columns c _ _ Hd Hc E) as (vals & H1 & H2 & H3). exists vals. split; [exact H1|].
    unfold current. rewrite Hc, H2. exact H3.
Qed.

Lemma conn_eta (c : conn Db) : match c_tx c with Some _ => {| c_file := c_file c; c_tx := Some (current c) |} | None => {| c_file := current c; c_tx := None |} end = c.
Proof. destruct c as [f [d|]]; reflexivity. Qed.

Lemma read_eq t rows_of columns c : NoDup (map col_name (t_columns t)) -> known_columns t columns -> keeps run t rows_of ->
  read_columns s depth t run ce columns None c = (map_rows s depth t (cmap t columns) (map (pick (t_columns t) columns) (rows_of (current c))), c).
Proof.
  intros Hd Hk HK. unfold read_columns. rewrite (proj1 (mapping_spec t columns Hd) Hk). unfold bind, lift. rewrite full_name_eq, in_query_eq. unfold fmt_name.
  rewrite map_id, app_nil_r. change (txt "SELECT " ++ commas (wanted_names t columns) ++ txt " FROM " ++ full_name t) with (select_text (full_name t) (wanted_names t columns)).
  unfold execute. change (text_eqb (select_text (full_name t) (wanted_names t columns)) (txt "BEGIN")) with false.
  change (text_eqb (select_text (full_name t) (wanted_names t columns)) (txt "COMMIT")) with false. cbv iota. fold (current c).
  rewrite (keeps_select run t rows_of HK columns (current c)). rewrite conn_eta. reflexivity.
Qed.

Lemma map_rows_app t cm a b : map_rows s depth t cm (a ++ b) = (x <-? map_rows s depth t cm a ;; y <-? map_rows s depth t cm b ;; Ok (x ++ y)).
Proof.
  induction a as [|row a IH]; cbn [app map_rows].
  - cbn [rbind]. destruct (map_rows s depth t cm b); reflexivity.
  - destruct (row_to_user s depth t cm row) as [x|]; [|reflexivity]. cbn [rbind]. rewrite IH. destruct (map_rows s depth t cm a) as [y|]; [|reflexivity]. cbn [rbind].
    destruct (map_rows s depth t cm b); reflexivity.
Qed.

Lemma keeps_ran t rows_of columns : keeps run t rows_of -> forall vals d d',
  ran run (map (fun v => (insert_text (full_name t) (wanted_names t columns), v)) vals) d d' ->
  exists new, rows_of d' = rows_of d ++ new /\ map (pick (t_columns t) columns) new = map (map as_sql) vals.
Proof.
  intros HK. induction vals as [|v vals IH]; intros d d' H; cbn [map] in H; inversion H as [|? ? ? ? d1 ? out Hr Hs]; subst.
  - exists []. split; [rewrite app_nil_r; reflexivity|reflexivity].
  - destruct (keeps_insert run t rows_of HK _ _ _ _ _ Hr) as (row & E1 & _ & E2). destruct (IH _ _ Hs) as (new & E3 & E4). exists (row :: new).
    split; [rewrite E3, E1, <- app_assoc; reflexivity|]. cbn [map]. rewrite E2, E4. reflexivity.
Qed.

Lemma rows_back t rows_of rows columns c c' old : wf_schema s -> NoDup (map col_name (t_columns t)) -> keeps run t rows_of -> ~ plain_table t ->
  (forall row, In row rows -> List.length row = List.length (t_columns t) /\
     forall vals, handed_row s depth t columns row vals -> row_ok s depth (map as_sql vals) [] (t_columns t) columns row) ->
  read_columns s depth t run ce columns None c = (Ok old, c) ->
  write_rows s depth t run ce rows columns c = (Ok tt, c') ->
  read_columns s depth t run ce columns None c' = (Ok (old ++ map (restored_row s (t_columns t) columns) rows), c').
Proof.
  intros HS Hd HK Hp Hrows Hold E. destruct (write_current _ _ _ _ _ Hd E) as (Hk & vals & H1 & H2). rewrite (read_eq t rows_of) in * by assumption.
  apply pair_equal_spec in Hold. destruct Hold as [Hold _]. f_equal. destruct (keeps_ran t rows_of columns HK _ _ _ H2) as (new & E1 & E2).
  rewrite E1, map_app, map_rows_app, Hold. cbn [rbind]. rewrite E2. clear -H1 Hrows Hp HS.
  assert (Em : map_rows s depth t (cmap t columns) (map (map as_sql) vals) = Ok (map (restored_row s (t_columns t) columns) rows)); [|rewrite Em; reflexivity].
  induction H1 as [|row v rows vals Hh _ IH]; [reflexivity|]. cbn [map map_rows]. destruct (Hrows row (or_introl eq_refl)) as [Hl Hr].
  rewrite IH by (intros r Hr'; apply Hrows; right; exact Hr'). specialize (Hr v Hh). unfold row_to_user. rewrite (proj2 (conversion_plain t) Hp).
  destruct Hh as [[H _]|(_ & cells & Hc & -> & Hh)]; [contradiction|].
  pose proof (read_row_back s depth HS (map as_sql (pick (t_columns t) columns cells)) columns (t_columns t) row cells 0 [] Hc eq_refl) as H.
  cbn [app] in H. unfold cmap. change (Z.of_nat 0) with 0 in H. rewrite H; [reflexivity| |exact Hr].
  intros k c v x H3 H4 H5 H6. destruct (Hh k c x H3 H4 H5) as (v' & E & E'). rewrite H6 in E. injection E as ->. exact E'.
Qed.

Lemma update_spec t row columns cond c r c' : NoDup (map col_name (t_columns t)) ->
  update_columns s depth t run ce row columns cond c = (r, c') ->
  match r with
  | Ok _ => exists vals, handed_row s depth t columns row vals /\ ran run [(update_text (full_name t) (wanted_names t columns) cond, vals)] (current c) (current c') /\
      (c_tx c = None <-> c_tx c' = None)
  | Raise _ => c_file c' = c_file c
  end.
Proof.
  intros Hd E. unfold update_columns in E. destruct (known_dec t columns) as [Hk|Hk].
  - rewrite (proj1 (mapping_spec t columns Hd) Hk) in E. unfold bind, lift in E. rewrite full_name_eq, in_query_eq in E.
    destruct (row_to_write s depth t row (cmap t columns)) as [vals|e] eqn:Ev; [|injection E as <- <-; reflexivity].
    change (txt "UPDATE " ++ full_name t ++ txt " SET " ++ commas (map fmt_update (wanted_names t columns)) ++ txt " WHERE " ++ cond)
      with (update_text (full_name t) (wanted_names t columns) cond) in E.
    unfold execute in E. change (text_eqb (update_text (full_name t) (wanted_names t columns) cond) (txt "BEGIN")) with false in E.
    change (text_eqb (update_text (full_name t) (wanted_names t columns) cond) (txt "COMMIT")) with false in E. cbv iota in E. fold (current c) in E.
    destruct (run (update_text (full_name t) (wanted_names t columns) cond) vals (current c)) as [out d|e|e] eqn:Er.
    + unfold ret in E. injection E as <- <-. exists vals. split; [apply to_write_handed; exact Ev|].
      destruct c as [f [x|]]; cbn [current c_tx c_file] in *; (split; [eapply ran_cons; [exact Er|constructor]|]); split; intros H; try discriminate H; reflexivity.
    + injection E as <- <-. reflexivity.
    + injection E as <- <-. reflexivity.
  - rewrite (proj2 (mapping_spec t columns Hd) Hk) in E. unfold bind, lift in E. injection E as <- <-. reflexivity.
Qed.

Lemma plain_rows_back t rows_of rows columns c c' old : NoDup (map col_name (t_columns t)) -> keeps run t rows_of -> plain_table t ->
  read_columns s depth t run ce columns None c = (Ok old, c) ->
  write_rows s depth t run ce rows columns c = (Ok tt, c') ->
  read_columns s depth t run ce columns None c' = (Ok (old ++ map (map as_sql) rows), c').
Proof.
  intros Hd HK Hp Hold E. destruct (write_current _ _ _ _ _ Hd E) as (Hk & vals & H1 & H2). rewrite (read_eq t rows_of) in * by assumption.
  apply pair_equal_spec in Hold. destruct Hold as [Hold _]. f_equal. destruct (keeps_ran t rows_of columns HK _ _ _ H2) as (new & E1 & E2).
  rewrite E1, map_app, map_rows_app, Hold. cbn [rbind]. rewrite E2. clear -H1 Hp.
  assert (Em : map_rows s depth t (cmap t columns) (map (map as_sql) vals) = Ok (map (map as_sql) rows)); [|rewrite Em; reflexivity].
  induction H1 as [|row v rows vals Hh _ IH]; [reflexivity|]. cbn [map map_rows]. rewrite IH. unfold row_to_user. rewrite (proj2 (conversion_false t) Hp).
  destruct Hh as [[_ ->]|(H & _)]; [reflexivity|contradiction].
Qed.
End Rows.

(** ** create_table *)
Lemma definitions_commas t : forall cols, (exists l c, cols = l ++ [c] /\ col_virtual c = false) ->
  column_definitions t cols = commas (map (column_text t) (filter (fun c => negb (col_virtual c)) cols)).
Proof.
  induction cols as [|c cols IH]; intros (l & c0 & E & Hv); [destruct l; discriminate E|]. cbn [column_definitions filter].
  destruct cols as [|c1 cols].
  - destruct l as [|? [|]]; try discriminate E. injection E as ->. rewrite Hv. cbn. unfold column_text. rewrite !app_nil_r.
    destruct (t_with_types t), (col_constraint c0); reflexivity.
  - destruct l as [|c2 l]; [discriminate E|]. cbn in E. injection E as _ E. rewrite IH by (exists l, c0; split; assumption).
    assert (Hne : filter (fun c => negb (col_virtual c)) (c1 :: cols) <> []).
    { rewrite E. intros H. assert (Hin : In c0 (filter (fun c => negb (col_virtual c)) (l ++ [c0]))) by (apply filter_In; split; [apply in_or_app; right; left; reflexivity|rewrite Hv; reflexivity]).
      rewrite H in Hin. exact Hin. }
    destruct (col_virtual c); cbn [negb]; [reflexivity|]. destruct (filter (fun c => negb (col_virtual c)) (c1 :: cols)) as [|d ds]; [contradiction Hne; reflexivity|].
    cbn [map commas concat]. unfold column_text at 3. destruct (t_with_types t), (col_constraint c); rewrite <- !app_assoc; reflexivity.
Qed.

Lemma definitions_virtual t : forall cols, filter (fun c => negb (col_virtual c)) cols = [] -> column_definitions t cols = [].
Proof. induction cols as [|c cols IH]; [reflexivity|]. cbn [filter column_definitions]. destruct (col_virtual c); cbn [negb]; [exact IH|discriminate]. Qed.

Lemma has_real t : has_non_virtual t = match real_columns t with [] => false | _ => true end.
Proof.
  unfold has_non_virtual, real_columns. induction (t_columns t) as [|c l IH]; [reflexivity|]. cbn [existsb filter].
  destruct (negb (col_virtual c)); [reflexivity|exact IH].
Qed.

Lemma create_query t : ends_real t -> create_table_query t = create_text t.
Proof.
  intros H. unfold create_table_query, create_text. rewrite has_real, full_name_eq.
  assert (Ed : column_definitions t (t_columns t) = commas (map (column_text t) (real_columns t))).
  { destruct H as [H|H]; [rewrite H; cbn; apply definitions_virtual; exact H|apply definitions_commas; exact H]. }
  rewrite Ed. destruct (t_using t), (real_columns t), (t_constraint t); cbn [orb map commas concat app]; rewrite <- ?app_assoc; reflexivity.
Qed.

Section Database.
Context {Db : Type} (run : list Z -> list value -> Db -> outcome (list (list value)) Db) (ce : Db -> option exn).

Definition create_conv (blacklist : list (list Z)) (t : table) : res (list Z * list value) :=
  if t_without_rowid t && existsb (text_eqb (t_name t)) blacklist then
    if has_non_virtual t then Ok (create_table_query t, []) else Raise AttributeErr
  else Ok (create_table_query t ++ (if has_non_virtual t && t_without_rowid t then txt " WITHOUT ROWID" else []), []).

Lemma create_tx d blacklist c : create_schema run ce d blacklist c = tx run ce (for_each (step run ce (create_conv blacklist)) (db_tables d)) c.
Proof.
  unfold create_schema. match goal with |- ?l = _ => change l with (tx run ce (for_each (fun t => if t_without_rowid t && existsb (text_eqb (t_name t)) blacklist
    then create_ordinary_rowid_table t run ce else create_table t run ce) (db_tables d)) c) end.
  apply tx_ext. intros st. apply for_each_ext. clear st. intros t st. unfold step, create_conv, create_ordinary_rowid_table, create_table.
  destruct (t_without_rowid t); cbn [andb].
  - destruct (existsb (text_eqb (t_name t)) blacklist); [|reflexivity]. rewrite andb_true_r. destruct (has_non_virtual t); reflexivity.
  - reflexivity.
Qed.

Lemma create_ordinary blacklist t p : create_conv blacklist t = Ok p -> ordinary (fst p).
Proof.
  unfold create_conv. destruct (t_without_rowid t && existsb (text_eqb (t_name t)) blacklist).
  - destruct (has_non_virtual t); [|discriminate]. intros E. injection E as <-. split; reflexivity.
  - intros E. injection E as <-. split; reflexivity.
Qed.

Lemma create_list blacklist tables l : Forall ends_real tables -> Forall2 (fun x p => create_conv blacklist x = Ok p) tables l ->
  l = map (fun t => (create_statement blacklist t, [])) tables.
Proof.
  intros H H2. induction H2 as [|t p tables l E _ IH]; [reflexivity|]. inversion H; subst. cbn [map]. rewrite <- IH by assumption. f_equal. clear IH H.
  unfold create_conv in E. rewrite create_query in E by assumption. unfold create_statement. rewrite has_real in E.
  assert (Hb : existsb (text_eqb (t_name t)) blacklist = if in_dec (list_eq_dec Z.eq_dec) (t_name t) blacklist then true else false).
  { destruct (in_dec (list_eq_dec Z.eq_dec) (t_name t) blacklist) as [Hi|Hi].
    - apply existsb_exists. exists (t_name t). split; [exact Hi|apply text_eqb_eq; reflexivity].
    - apply not_true_is_false. intros He. apply existsb_exists in He. destruct He as (x & Hx & Ex). apply text_eqb_eq in Ex. subst x. contradiction. }
  rewrite Hb in E. destruct (t_without_rowid t), (in_dec (list_eq_dec Z.eq_dec) (t_name t) blacklist), (real_columns t); cbn [andb] in E; try discriminate E;
    injection E as <-; rewrite ?app_nil_r; reflexivity.
Qed.

Lemma create_all d blacklist c r c' : Forall ends_real (db_tables d) -> c_tx c = None -> create_schema run ce d blacklist c = (r, c') ->
  all_or_nothing run (map (fun t => (create_statement blacklist t, [])) (db_tables d)) c r c'.
Proof.
  intros Hr Hc E. rewrite create_tx in E. apply tx_all in E; [|intros x p; apply create_ordinary|exact Hc]. destruct r as [[]|]; [|exact E].
  destruct E as (l & H1 & H2). rewrite (create_list _ _ _ Hr H1) in H2. exact H2.
Qed.

Lemma delete_all d c r c' : c_tx c = None -> delete_schema run ce d c = (r, c') ->
  all_or_nothing run (map (fun t => (txt "DROP TABLE " ++ full_name t, [])) (db_tables d)) c r c'.
Proof.
  intros Hc E. assert (Et : delete_schema run ce d c = tx run ce (for_each (step run ce (fun t => Ok (txt "DROP TABLE " ++ full_name t, []))) (db_tables d)) c).
  { unfold delete_schema. match goal with |- ?l = _ => change l with (tx run ce (for_each (fun t => delete_table t run ce) (db_tables d)) c) end.
    apply tx_ext. intros st. apply for_each_ext. clear st. intros t st. unfold step, delete_table. rewrite full_name_eq. reflexivity. }
  rewrite Et in E. apply tx_all in E; [|intros x p Hp; injection Hp as <-; split; reflexivity|exact Hc]. destruct r as [[]|]; [|exact E].
  destruct E as (l & H1 & H2). assert (El : l = map (fun t => (txt "DROP TABLE " ++ full_name t, [])) (db_tables d)).
  { clear -H1. induction H1 as [|x p xs l E _ IH]; [reflexivity|]. injection E as <-. cbn [map]. rewrite IH. reflexivity. }
  rewrite <- El. exact H2.
Qed.

(** ** Attached databases *)
Lemma exec_auto text vals c out c' : ordinary text -> c_tx c = None -> execute run ce text vals c = (Ok out, c') ->
  c_tx c' = None /\ run text vals (c_file c) = Done out (c_file c').
Proof.
  intros [H1 H2] Hc E. unfold execute in E. rewrite H1, H2, Hc in E. destruct (run text vals (c_file c)) as [o d|e|e]; try discriminate E.
  injection E as <- <-. split; reflexivity.
Qed.

Lemma dict_get_some d k v : dict_get d k = Some v -> In (k, v) d.
Proof.
  unfold dict_get. destruct (find (fun x => text_eqb (fst x) k) d) as [[a b]|] eqn:E; [|discriminate]. intros H. injection H as <-.
  apply find_some in E. destruct E as [E1 E2]. cbn in E2. apply text_eqb_eq in E2. subst a. exact E1.
Qed.
Lemma dict_get_none d k : dict_get d k = None -> ~ In k (map fst d).
Proof.
  unfold dict_get. destruct (find (fun x => text_eqb (fst x) k) d) as [[a b]|] eqn:E; [discriminate|]. intros _ H. apply in_map_iff in H.
  destruct H as (x & <- & Hx). apply (find_none _ _ E) in Hx. cbn in Hx. rewrite (proj2 (text_eqb_eq _ _) eq_refl) in Hx. discriminate Hx.
Qed.

Lemma attach_spec name : forall rel bt bf c bt' bf' c', c_tx c = None -> NoDup (map fst rel) -> NoDup (map fst bf) -> NoDup (map snd bf) ->
  (forall f a n, In (f, a) bf -> In n (map fst rel) -> a <> name ++ txt "_" ++ n) ->
  attach_all run ce name rel bt bf c = (Ok (bt', bf'), c') ->
  exists new, bf' = bf ++ new /\ c_tx c' = None /\ ran run (map (fun x => (attach_text (fst x) (snd x), [])) new) (c_file c) (c_file c') /\
    NoDup (map fst bf') /\ NoDup (map snd bf') /\ (forall f, In f (map fst new) -> In f (map snd rel)) /\
    exists more, bt' = bt ++ more /\ map fst more = map fst rel /\
      forall n a, In (n, a) more -> exists f, In (n, f) rel /\ In (f, a) bf'.
Proof.
  induction rel as [|[n f] rel IH]; intros bt bf c bt' bf' c' Hc Hr Hf Ha Hn E; cbn [attach_all] in E.
  - unfold ret in E. injection E as <- <- <-. exists []. rewrite app_nil_r. split; [reflexivity|]. split; [exact Hc|]. split; [constructor|].
    split; [exact Hf|]. split; [exact Ha|]. split; [intros x []|]. exists []. rewrite app_nil_r. split; [reflexivity|]. split; [reflexivity|]. intros ? ? [].
  - cbn [map fst snd] in *. inversion Hr as [|? ? Hr1 Hr2]; subst. destruct (dict_get bf f) as [a|] eqn:Eg.
    + apply dict_get_some in Eg. destruct (IH _ _ _ _ _ _ Hc Hr2 Hf Ha (fun f a m H1 H2 => Hn f a m H1 (or_intror H2)) E) as (new & -> & H1 & H2 & H3 & H4 & H5 & more & -> & H6 & H7).
      exists new. split; [reflexivity|]. split; [exact H1|]. split; [exact H2|]. split; [exact H3|]. split; [exact H4|]. split; [intros x Hx; right; apply H5; exact Hx|].
      exists ((n, a) :: more). split; [rewrite <- app_assoc; reflexivity|]. split; [cbn; rewrite H6; reflexivity|].
      intros m b [Hm|Hm].
      * injection Hm as <- <-. exists f. split; [left; reflexivity|]. apply in_or_app. left. exact Eg.
      * destruct (H7 _ _ Hm) as (g & G1 & G2). exists g. split; [right; exact G1|exact G2].
    + apply dict_get_none in Eg. unfold bind at 1 in E. set (a := name ++ txt "_" ++ n) in *.
      change (txt "ATTACH DATABASE '" ++ f ++ txt "' AS " ++ a) with (attach_text f a) in E.
      destruct (execute run ce (attach_text f a) [] c) as [[out|] c1] eqn:Ee; [|discriminate E].
      apply exec_auto in Ee; [|split; reflexivity|exact Hc]. destruct Ee as [Hc1 Er].
      assert (Hf' : NoDup (map fst (bf ++ [(f, a)]))).
      { rewrite map_app. apply NoDup_app_single; assumption. }
      assert (Ha' : NoDup (map snd (bf ++ [(f, a)]))).
      { rewrite map_app. apply NoDup_app_single; [exact Ha|]. intros Hi. apply in_map_iff in Hi. destruct Hi as ([g b] & Eb & Hi). cbn in Eb. subst b.
        exact (Hn g a n Hi (or_introl eq_refl) eq_refl). }
      assert (Hn' : forall g b m, In (g, b) (bf ++ [(f, a)]) -> In m (map fst rel) -> b <> name ++ txt "_" ++ m).
      { intros g b m Hi Hm. apply in_app_or in Hi. destruct Hi as [Hi|[Hi|[]]]; [apply (Hn g b m Hi (or_intror Hm))|]. injection Hi as <- <-. intros Eb.
        unfold a in Eb. apply app_inv_head in Eb. apply app_inv_head in Eb. subst m. contradiction. }
      destruct (IH _ _ _ _ _ _ Hc1 Hr2 Hf' Ha' Hn' E) as (new & -> & H1 & H2 & H3 & H4 & H5 & more & -> & H6 & H7).
      exists ((f, a) :: new). split; [rewrite <- app_assoc; reflexivity|]. split; [exact H1|]. split; [cbn [map fst snd]; eapply ran_cons; eassumption|].
      split; [exact H3|]. split; [exact H4|]. split; [intros x [<-|Hx]; [left; reflexivity|right; apply H5; exact Hx]|].
      exists ((n, a) :: more). split; [rewrite <- app_assoc; reflexivity|]. split; [cbn; rewrite H6; reflexivity|].
      intros m b [Hm|Hm].
      * injection Hm as <- <-. exists f. split; [left; reflexivity|]. apply in_or_app. left. apply in_or_app. right. left. reflexivity.
      * destruct (H7 _ _ Hm) as (g & G1 & G2). exists g. split; [right; exact G1|exact G2].
Qed.

Lemma from_file_spec name tables rel c db c' : c_tx c = None -> NoDup (map fst rel) ->
  from_file run ce name tables rel c = (Ok db, c') ->
  exists attached, c_tx c' = None /\ ran run (map (fun x => (attach_text (fst x) (snd x), [])) attached) (c_file c) (c_file c') /\
    NoDup (map fst attached) /\ NoDup (map snd attached) /\ (forall f, In f (map fst attached) <-> In f (map snd rel)) /\
    db_attached db = map snd attached /\ db_external db = false /\ map t_name (db_tables db) = map t_name tables /\
    forall t, In t (db_tables db) -> attached_as rel attached (t_name t) (t_attached t).
Proof.
  intros Hc Hr E. unfold from_file, bind in E. destruct (attach_all run ce name rel [] [] c) as [[[bt bf]|] c1] eqn:Ea; [|discriminate E].
  unfold ret in E. injection E as <- <-.
  destruct (attach_spec name rel [] [] c bt bf c1 Hc Hr (NoDup_nil _) (NoDup_nil _) (fun f a n H => False_ind _ H) Ea) as (new & -> & H1 & H2 & H3 & H4 & H5 & more & -> & H6 & H7).
  cbn [app] in *. exists new. split; [exact H1|]. split; [exact H2|]. split; [exact H3|]. split; [exact H4|]. split.
  { intros f. split; [apply H5|]. intros Hf. apply in_map_iff in Hf. destruct Hf as ([n f'] & Ef & Hf). cbn in Ef. subst f'.
    assert (Hn : In n (map fst more)) by (rewrite H6; apply in_map_iff; exists (n, f); split; [reflexivity|exact Hf]).
    apply in_map_iff in Hn. destruct Hn as ([n' a] & En & Hn). cbn in En. subst n'. destruct (H7 _ _ Hn) as (g & G1 & G2).
    assert (g = f) as <- by exact (NoDup_fst_fun rel n g f Hr G1 Hf). apply in_map_iff. exists (g, a). split; [reflexivity|exact G2]. }
  cbn [db_attached db_external db_tables fst snd]. split; [reflexivity|]. split; [reflexivity|]. split; [unfold init_tables; rewrite map_map; reflexivity|].
  intros t Ht. unfold init_tables in Ht. apply in_map_iff in Ht. destruct Ht as (t0 & <- & _). cbn [t_name t_attached].
  destruct (dict_get more (t_name t0)) as [a|] eqn:Eg.
  - apply dict_get_some in Eg. destruct (H7 _ _ Eg) as (g & G1 & G2). exact (attached_there rel new _ g a G1 G2).
  - apply dict_get_none in Eg. rewrite H6 in Eg. apply attached_here. exact Eg.
Qed.

Lemma detach_spec : forall l c c', c_tx c = None -> detach_all run ce l c = (Ok tt, c') ->
  c_tx c' = None /\ ran run (map (fun n => (detach_text n, [])) l) (c_file c) (c_file c').
Proof.
  unfold detach_all. induction l as [|n l IH]; intros c c' Hc E; cbn [for_each] in E.
  - unfold ret in E. injection E as <-. split; [exact Hc|constructor].
  - unfold bind in E. change (txt "DETACH DATABASE " ++ n) with (detach_text n) in E. destruct (execute run ce (detach_text n) [] c) as [[out|] c1] eqn:Ee; [|discriminate E].
    apply exec_auto in Ee; [|split; reflexivity|exact Hc]. destruct Ee as [Hc1 Er]. unfold ret in E. destruct (IH _ _ Hc1 E) as [H1 H2]. split; [exact H1|].
    cbn [map]. eapply ran_cons; eassumption.
Qed.

Lemma close_spec d c r st : close run ce d (c, false) = (r, st) ->
  if db_external d then r = Ok tt /\ st = (c, false)
  else snd st = true /\ (c_tx c = None -> r = Ok tt -> ran run (map (fun n => (detach_text n, [])) (db_attached d)) (c_file c) (c_file (fst st))).
Proof.
  unfold close. destruct (db_external d); cbn [fst]; intros E; [injection E as <- <-; split; reflexivity|].
  destruct (detach_all run ce (db_attached d) c) as [r1 c1] eqn:Ed. injection E as <- <-. split; [reflexivity|]. cbn [fst]. intros Hc ->.
  exact (proj2 (detach_spec _ _ _ Hc Ed)).
Qed.
End Database.
