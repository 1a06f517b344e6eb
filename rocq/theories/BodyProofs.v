(** Proofs about the names in generated code. *)
From Coq Require Import List Bool Ascii String Lia.
From Verif Require Import Base ModelNames SpecNames NamesProofs ModelBodies SpecBodies.
Import ListNotations.
Open Scope list_scope.

Notation P := (lit "property").
Lemma eqn_refl n : eqn n n = true. Proof. apply eqn_spec. reflexivity. Qed.
Lemma eqn_neq a b : a <> b -> eqn a b = false. Proof. apply eqn_false. Qed.
Lemma lookup_cons n m v s : lookup n ((m, v) :: s) = if eqn n m then Some v else lookup n s. Proof. reflexivity. Qed.
Lemma lookup_app n : forall a b, lookup n (a ++ b) = match lookup n a with Some v => Some v | None => lookup n b end.
Proof. induction a as [|[m v] a IH]; intros b; [reflexivity|]. cbn [app]. rewrite !lookup_cons. destruct (eqn n m); [reflexivity|apply IH]. Qed.
Lemma lookup_none n : forall s, ~ In n (map fst s) -> lookup n s = None.
Proof. induction s as [|[m v] s IH]; intros H; [reflexivity|]. rewrite lookup_cons, eqn_neq by (intros ->; apply H; left; reflexivity). apply IH. intros H'. apply H. right. exact H'. Qed.
Lemma lookup_some n v : forall s, lookup n s = Some v -> In n (map fst s).
Proof. induction s as [|[m w] s IH]; intros H; [discriminate|]. rewrite lookup_cons in H. destruct (eqn n m) eqn:E; [left; symmetry; apply eqn_spec, E|right; apply IH, H]. Qed.
Lemma lookup_in n v : forall s, NoDup (map fst s) -> In (n, v) s -> lookup n s = Some v.
Proof.
  induction s as [|[m w] s IH]; intros D H; [destruct H|]. inversion_clear D as [|? ? H1 H2]. rewrite lookup_cons. destruct H as [[= -> ->]|H]; [rewrite eqn_refl; reflexivity|].
  rewrite eqn_neq; [apply IH; assumption|]. intros ->. apply H1. apply (in_map fst) in H. exact H.
Qed.
Definition agree (s s' : namespace) : Prop := forall n, lookup n s = lookup n s'.
Lemma agree_app v s s' : agree s s' -> agree (v ++ s) (v ++ s').
Proof. intros H n. rewrite !lookup_app. destruct (lookup n v); [reflexivity|apply H]. Qed.

Lemma run_app g : forall a b s, run_body s g (a ++ b) = match run_body s g a with Ok s => run_body s g b | Raise e => Raise e end.
Proof.
  induction a as [|st a IH]; intros b s; [reflexivity|]. destruct st as [n ds df|n inner|n]; cbn [app run_body].
  - destruct (all_found s g df); [|reflexivity]. destruct (define s g n ds); [apply IH|reflexivity].
  - destruct (run_inner class_start g inner); [apply IH|reflexivity].
  - apply IH.
Qed.
Lemma run_def g s n df body : run_body s g (Def n [] df :: body) = match all_found s g df with Ok _ => run_body ((n, VFunction n) :: s) g body | Raise e => Raise e end.
Proof. reflexivity. Qed.
Definition binds (st : statement) : name := match st with Def n _ _ | Inner n _ | Assign n => n end.
Lemma define_key g s n ds s' : define s g n ds = Ok s' -> exists v, s' = (n, v) :: s.
Proof. unfold define. destruct ds as [|d ds]; [intros [= <-]; eexists; reflexivity|]. destruct (decorate s g d); [intros [= <-]; eexists; reflexivity|discriminate]. Qed.
Lemma run_keeps g n : forall body s s', run_body s g body = Ok s' -> ~ In n (map binds body) -> lookup n s' = lookup n s.
Proof.
  induction body as [|st body IH]; intros s s' E H; [injection E as <-; reflexivity|].
  assert (H1 : n <> binds st) by (intros ->; apply H; left; reflexivity). assert (H2 : ~ In n (map binds body)) by (intros X; apply H; right; exact X).
  assert (K : exists v, run_body ((binds st, v) :: s) g body = Ok s').
  { destruct st as [m ds df|m inner|m]; cbn [run_body binds] in *.
    - destruct (all_found s g df); [|discriminate]. destruct (define s g m ds) as [s1|] eqn:D; [|discriminate]. destruct (define_key _ _ _ _ _ D) as [v ->]. exists v. exact E.
    - destruct (run_inner class_start g inner); [|discriminate]. eexists. exact E.
    - eexists. exact E. }
  destruct K as [v K]. rewrite (IH _ _ K H2), lookup_cons, eqn_neq by exact H1. reflexivity.
Qed.

(** ** Decorators that mean what they should *)
Definition clean (g : namespace) : Prop := lookup P g = None /\ lookup (lit "classmethod") g = None /\ lookup (lit "staticmethod") g = None.
Definition decorator_value (d : name) : pvalue := if eqn d P then VProperty false else if eqn d (lit "classmethod") then VClassMethod else VStaticMethod.
Definition is_decorator (d : name) : Prop := d = P \/ d = lit "classmethod" \/ d = lit "staticmethod".
Lemma decorate_named g s d : clean g -> is_decorator d -> lookup d s = None -> decorate s g (Named d) = Ok (decorator_value d).
Proof. intros (H1 & H2 & H3) H Hs. unfold decorate, look. rewrite Hs. destruct H as [-> |[-> | ->]]; rewrite ?H1, ?H2, ?H3; reflexivity. Qed.
Lemma decorate_taken g s d b : lookup d s = Some (VProperty b) -> decorate s g (Named d) = Raise TypeErr.
Proof. intros Hs. unfold decorate, look. rewrite Hs. reflexivity. Qed.
Lemma run_decorated g s d n body : clean g -> is_decorator (lit d) -> lookup (lit d) s = None -> run_body s g (decorated d n :: body) = run_body ((n, decorator_value (lit d)) :: s) g body.
Proof. intros Hg Hd Hs. cbn [run_body decorated all_found define]. rewrite (decorate_named g s (lit d) Hg Hd Hs). reflexivity. Qed.
Lemma run_taken g s d n b body : lookup (lit d) s = Some (VProperty b) -> run_body s g (decorated d n :: body) = Raise TypeErr.
Proof. intros Hs. cbn [run_body decorated all_found define]. rewrite (decorate_taken g s (lit d) b Hs). reflexivity. Qed.

(** Statements without decorators *)
Definition effect (g : namespace) (st : statement) : name * pvalue :=
  match st with
  | Def n _ _ => (n, VFunction n)
  | Inner n inner => (n, VClass (map fst match run_inner class_start g inner with Ok s => s | Raise _ => [] end))
  | Assign n => (n, VData)
  end.
Definition simple (g : namespace) (st : statement) : Prop :=
  match st with
  | Def n ds df => ds = [] /\ df = []
  | Inner n inner => exists s, run_inner class_start g inner = Ok s
  | Assign n => True
  end.
Lemma run_simple g : forall body s, Forall (simple g) body -> run_body s g body = Ok (rev (map (effect g) body) ++ s).
Proof.
  induction body as [|st body IH]; intros s H; [reflexivity|]. inversion_clear H as [|? ? H1 H2].
  assert (E : run_body s g (st :: body) = run_body (effect g st :: s) g body).
  { destruct st as [n ds df|n inner|n]; cbn [run_body effect simple] in *; [destruct H1 as [-> ->]; reflexivity|destruct H1 as [s1 ->]; reflexivity|reflexivity]. }
  rewrite E, IH by exact H2. cbn [map rev]. rewrite <- app_assoc. reflexivity.
Qed.
Lemma simple_plain g (l : list name) : Forall (simple g) (map plain l).
Proof. apply Forall_forall. intros st H. apply in_map_iff in H. destruct H as (n & <- & _). split; reflexivity. Qed.
Lemma effect_key g body : map fst (map (effect g) body) = map binds body.
Proof. rewrite map_map. apply map_ext. intros [n ds df|n inner|n]; reflexivity. Qed.

(** Segments of properties: name, whether there is a setter, methods after it *)
Record segment := { sg_name : name; sg_setter : bool; sg_extra : list name }.
Definition segment_body (x : segment) : list statement :=
  [decorated "property" (sg_name x)] ++ (if sg_setter x then [Def (sg_name x) [Setter (sg_name x)] []] else []) ++ map plain (sg_extra x).
Definition segment_values (x : segment) : namespace := (sg_name x, VProperty (sg_setter x)) :: map (fun n => (n, VFunction n)) (sg_extra x).
Lemma segment_run g s x : clean g -> lookup P s = None -> exists s', run_body s g (segment_body x) = Ok s' /\ agree s' (rev (segment_values x) ++ s).
Proof.
  intros Hg Hs. unfold segment_body. cbn [app]. rewrite run_decorated by (try assumption; left; reflexivity). cbn [decorator_value].
  replace (decorator_value P) with (VProperty false) by reflexivity.
  assert (E : forall b, rev (map (effect g) (map plain (sg_extra x))) ++ (sg_name x, VProperty b) :: s = rev ((sg_name x, VProperty b) :: map (fun n => (n, VFunction n)) (sg_extra x)) ++ s).
  { intros b. cbn [rev]. rewrite <- app_assoc. cbn [app]. rewrite map_map. reflexivity. }
  destruct (sg_setter x) eqn:Es.
  - cbn [app run_body all_found define decorate]. unfold look. rewrite lookup_cons, eqn_refl. rewrite run_simple by apply simple_plain. eexists. split; [reflexivity|].
    intros n. unfold segment_values. rewrite Es. rewrite <- E. rewrite !lookup_app. destruct (lookup n _); [reflexivity|]. rewrite !lookup_cons. destruct (eqn n (sg_name x)); reflexivity.
  - cbn [app]. rewrite run_simple by apply simple_plain. eexists. split; [reflexivity|]. intros n. unfold segment_values. rewrite Es, E. reflexivity.
Qed.
Lemma segment_lookup s s' x : agree s' (rev (segment_values x) ++ s) -> lookup P s = None -> ~ In P (sg_extra x) ->
  lookup P s' = if eqn P (sg_name x) then Some (VProperty (sg_setter x)) else None.
Proof.
  intros H Hs He. rewrite (H P). unfold segment_values. cbn [rev]. rewrite <- app_assoc, lookup_app, lookup_none.
  - cbn [app]. rewrite lookup_cons, Hs. reflexivity.
  - rewrite map_rev, map_map. cbn [fst]. rewrite map_id. intros X. apply in_rev in X. exact (He X).
Qed.
Lemma segments_run g : clean g -> forall segs s, lookup P s = None -> (forall x, In x segs -> ~ In P (sg_extra x)) -> ~ In P (removelast (map sg_name segs)) ->
  exists s', run_body s g (flat_map segment_body segs) = Ok s' /\ agree s' (rev (flat_map segment_values segs) ++ s).
Proof.
  intros Hg. induction segs as [|x segs IH]; intros s Hs He Hn; [exists s; split; [reflexivity|intros n; reflexivity]|].
  cbn [flat_map]. rewrite run_app. destruct (segment_run g s x Hg Hs) as (s1 & E1 & A1). rewrite E1.
  destruct segs as [|y segs].
  - exists s1. split; [reflexivity|]. cbn [flat_map]. rewrite app_nil_r. exact A1.
  - destruct (IH s1) as (s2 & E2 & A2).
    + rewrite (segment_lookup s s1 x A1 Hs (He x (or_introl eq_refl))), eqn_neq; [reflexivity|]. intros E. apply Hn. cbn [map]. left. symmetry. exact E.
    + intros z Hz. apply He. right. exact Hz.
    + intros H. apply Hn. cbn [map] in *. right. exact H.
    + exists s2. split; [exact E2|]. intros n. rewrite (A2 n), rev_app_distr, <- app_assoc, !(lookup_app n (rev (flat_map segment_values (y :: segs)))).
      destruct (lookup n (rev _)); [reflexivity|apply A1].
Qed.
Lemma segments_fail g : clean g -> forall segs s, lookup P s = None -> (forall x, In x segs -> ~ In P (sg_extra x)) -> In P (removelast (map sg_name segs)) ->
  run_body s g (flat_map segment_body segs) = Raise TypeErr.
Proof.
  intros Hg. induction segs as [|x segs IH]; intros s Hs He Hn; [destruct Hn|]. destruct segs as [|y segs]; [destruct Hn|].
  cbn [flat_map]. rewrite run_app. destruct (segment_run g s x Hg Hs) as (s1 & E1 & A1). rewrite E1.
  assert (L := segment_lookup s s1 x A1 Hs (He x (or_introl eq_refl))).
  destruct (eqn P (sg_name x)) eqn:E.
  - unfold segment_body at 1. cbn [app]. apply (run_taken g s1 "property" _ (sg_setter x)). exact L.
  - apply IH; [exact L|intros z Hz; apply He; right; exact Hz|]. cbn [map] in Hn. destruct Hn as [Hn|Hn]; [|exact Hn]. rewrite Hn, eqn_refl in E. discriminate.
Qed.
(** Either way a name that is taken stays taken *)
Lemma segments_taken g (d : name) : clean g -> forall segs s s', lookup P s = None -> (forall x, In x segs -> ~ In P (sg_extra x) /\ ~ In d (sg_extra x)) -> In d (map sg_name segs) ->
  run_body s g (flat_map segment_body segs) = Ok s' -> exists b, lookup d s' = Some (VProperty b).
Proof.
  intros Hg segs s s' Hs He Hd E.
  assert (Hn : ~ In P (removelast (map sg_name segs))). { intros X. rewrite (segments_fail g Hg segs s Hs) in E; [discriminate|intros x Hx; apply He, Hx|exact X]. }
  destruct (segments_run g Hg segs s Hs (fun x Hx => proj1 (He x Hx)) Hn) as (s1 & E1 & A). rewrite E in E1. injection E1 as <-. rewrite (A d), lookup_app.
  assert (K : forall l, (forall x, In x l -> ~ In d (sg_extra x)) -> In d (map sg_name l) -> exists b, lookup d (rev (flat_map segment_values l)) = Some (VProperty b)).
  { clear. induction l as [|x l IH]; intros He Hd; [destruct Hd|]. cbn [flat_map]. rewrite rev_app_distr, lookup_app.
    destruct (in_dec (list_eq_dec ascii_dec) d (map sg_name l)) as [Hl|Hl].
    - destruct (IH (fun z Hz => He z (or_intror Hz)) Hl) as [b ->]. eexists. reflexivity.
    - destruct Hd as [Hd|Hd]; [|contradiction]. rewrite lookup_none.
      + exists (sg_setter x). unfold segment_values. cbn [rev]. rewrite lookup_app, lookup_none.
        * rewrite lookup_cons, Hd, eqn_refl. reflexivity.
        * rewrite map_rev, map_map. cbn [fst]. rewrite map_id. intros X. apply in_rev in X. exact (He x (or_introl eq_refl) X).
      + rewrite map_rev. intros X. apply in_rev in X. apply in_map_iff in X. destruct X as ([m v] & Em & X). cbn [fst] in Em. subst m. apply in_flat_map in X. destruct X as (z & Hz & X).
        unfold segment_values in X. destruct X as [X|X]; [injection X as X _; apply Hl; rewrite <- X; apply in_map, Hz|].
        apply in_map_iff in X. destruct X as (q & [= -> _] & X). exact (He z (or_intror Hz) X). }
  destruct (K segs (fun x Hx => proj2 (He x Hx)) Hd) as [b ->]. eexists. reflexivity.
Qed.

(** Packing contexts *)
Lemma inner_properties g : clean g -> forall ns s, lookup P s = None -> ~ In P (removelast ns) -> exists s', run_inner s g (map (fun n => (n, [Named P])) ns) = Ok s'.
Proof.
  intros Hg. induction ns as [|n ns IH]; intros s Hs Hn; [eexists; reflexivity|]. cbn [map run_inner define].
  rewrite (decorate_named g s P Hg) by (try exact Hs; left; reflexivity). destruct ns as [|m ns]; [eexists; reflexivity|].
  apply IH; [|intros H; apply Hn; right; exact H]. rewrite lookup_cons, eqn_neq; [exact Hs|]. intros E. apply Hn. left. symmetry. exact E.
Qed.
Lemma removelast_filter {B} (f : B -> name) (p : B -> bool) x : forall l, In x (removelast (map f (filter p l))) -> In x (removelast (map f l)).
Proof.
  induction l as [|a l IH]; intros H; [destruct H|]. cbn [filter] in H. destruct (p a).
  - destruct (filter p l) as [|b F] eqn:E; [destruct H|]. destruct l as [|c l]; [discriminate E|]. cbn [map] in *. destruct H as [H|H]; [left; exact H|right; apply IH; exact H].
  - destruct l as [|c l]; [destruct H|]. cbn [map] in *. right. apply IH, H.
Qed.

(** ** Class bodies *)
Ltac deco := first [assumption|left; reflexivity|right; left; reflexivity|right; right; reflexivity|reflexivity].
Definition ends g s body vals : Prop := exists s', run_body s g body = Ok s' /\ agree s' (rev vals ++ s).
Lemma ends_app g s a b va vb : ends g s a va -> (forall s1, agree s1 (rev va ++ s) -> ends g s1 b vb) -> ends g s (a ++ b) (va ++ vb).
Proof.
  intros (s1 & E1 & A1) H. destruct (H s1 A1) as (s2 & E2 & A2). exists s2. rewrite run_app, E1. split; [exact E2|]. intros n. rewrite (A2 n), rev_app_distr, <- app_assoc.
  apply agree_app, A1.
Qed.
Lemma ends_simple g s body : Forall (simple g) body -> ends g s body (map (effect g) body).
Proof. intros H. eexists. split; [apply run_simple, H|intros n; reflexivity]. Qed.
Lemma ends_decorated g s d n : clean g -> is_decorator (lit d) -> lookup (lit d) s = None -> ends g s [decorated d n] [(n, decorator_value (lit d))].
Proof. intros Hg Hd Hs. eexists. rewrite run_decorated by assumption. split; [reflexivity|intros m; reflexivity]. Qed.

Definition param_segment (p : name) : segment := {| sg_name := property_name p; sg_setter := false; sg_extra := [] |}.
Definition field_segment (f : sfield) : segment :=
  {| sg_name := property_name (sf_name f); sg_setter := true;
     sg_extra := (if sf_extended f then [is_present_name (sf_name f)] else []) ++
                 (if sf_optional f then [is_used_name (sf_name f); is_set_name (sf_name f); resetter_name (sf_name f)] else []) |}.
Definition table_segment (f : sfield) : segment := {| sg_name := property_name (sf_name f); sg_setter := false; sg_extra := [] |}.
Lemma params_segments l : map (fun p => decorated "property" (property_name p)) l = flat_map segment_body (map param_segment l).
Proof. induction l as [|p l IH]; [reflexivity|]. cbn [map flat_map]. rewrite IH. reflexivity. Qed.
Lemma tables_segments l : map (fun f => decorated "property" (property_name (sf_name f))) l = flat_map segment_body (map table_segment l).
Proof. induction l as [|p l IH]; [reflexivity|]. cbn [map flat_map]. rewrite IH. reflexivity. Qed.
Lemma fields_segments l : flat_map field_statements l = flat_map segment_body (map field_segment l).
Proof.
  induction l as [|f l IH]; [reflexivity|]. cbn [map flat_map]. rewrite IH. f_equal. unfold field_statements, segment_body, field_segment. cbn [sg_name sg_setter sg_extra app].
  do 2 f_equal. rewrite map_app. destruct (sf_extended f), (sf_optional f); reflexivity.
Qed.
Definition compound_segments (c : scope) : list segment := map param_segment (sc_params c) ++ map field_segment (sc_fields c).
Lemma segment_names c : map sg_name (compound_segments c) = map lower_snake (sc_params c ++ map sf_name (sc_fields c)).
Proof. unfold compound_segments. rewrite !map_app, !map_map. reflexivity. Qed.
Lemma extra_free d c x : (forall m, d <> lit "is_" ++ m) -> (forall m, d <> lit "reset_" ++ m) -> In x (compound_segments c) -> ~ In d (sg_extra x).
Proof.
  intros H1 H2 H. apply in_app_or in H. destruct H as [H|H]; apply in_map_iff in H; destruct H as (f & <- & _); cbn [sg_extra]; [intros []|].
  cbn [sg_extra field_segment]. intros X. apply in_app_or in X. destruct (sf_extended f), (sf_optional f); cbn [In] in X.
  all: repeat match goal with H : _ \/ _ |- _ => destruct H as [H|H] | H : False |- _ => destruct H end; symmetry in X; first [exact (H1 _ X)|exact (H2 _ X)].
Qed.

Section Class.
Context (defaults : list name) (packed : sfield -> bool) (c : scope) (g : namespace).
Context (Hid : scope_identifiers c) (Hacc : scope_accepted c = true) (Hreset : no_resetter_clash c) (Hoff : no_offset_clash c) (Hkind : well_kinded c).
Context (Hg : clean g) (Hdef : all_found class_start g defaults = Ok tt).
Lemma class_nodup : NoDup (class_names c).
Proof. assert (H := members_distinct c Hid Hacc Hreset Hoff). apply nodup_app_inv in H. apply H. Qed.

Definition tail_plains : list name := map lit ["init_packing_context"; "bitsizeof"; "bitsizeof_packed"; "initialize_offsets"; "initialize_offsets_packed"; "read"; "read_packed"; "write"; "write_packed"]%string.
Definition tail_body : list statement :=
  map plain tail_plains ++ [Inner (lit "ZserioPackingContext") (packing_body packed c)] ++ flat_map helper_statements (sc_fields c) ++
  match sc_kind c with KStruct => [] | _ => map (fun f => Assign (choice_tag_name (sf_name f))) (sc_fields c) ++ [Assign (lit "UNDEFINED_CHOICE")] end.
Definition head_body : list statement :=
  [Def (lit "__init__") [] match sc_kind c with KStruct => defaults | _ => [] end; decorated "classmethod" (lit "from_reader"); decorated "classmethod" (lit "from_reader_packed");
   decorated "staticmethod" (lit "type_info"); plain (lit "__eq__"); plain (lit "__hash__")].
Definition head_values : namespace :=
  [(lit "__init__", VFunction (lit "__init__")); (lit "from_reader", VClassMethod); (lit "from_reader_packed", VClassMethod); (lit "type_info", VStaticMethod);
   (lit "__eq__", VFunction (lit "__eq__")); (lit "__hash__", VFunction (lit "__hash__"))].
Definition tag_body : list statement := match sc_kind c with KStruct => [] | _ => [decorated "property" (lit "choice_tag")] end.
Definition tag_values : namespace := match sc_kind c with KStruct => [] | _ => [(lit "choice_tag", VProperty false)] end.
Definition function_values : namespace := map (fun f => (function_name f, VFunction (function_name f))) (sc_functions c).
Lemma compound_body : sc_kind c <> KDatabase ->
  class_body defaults packed c = head_body ++ flat_map segment_body (compound_segments c) ++ map plain (map function_name (sc_functions c)) ++ tag_body ++ tail_body.
Proof.
  intros Hk. unfold class_body, head_body, compound_segments, tag_body, tail_body. rewrite flat_map_app, <- params_segments, <- fields_segments, <- app_assoc, map_map.
  destruct (sc_kind c); try reflexivity. destruct (Hk eq_refl).
Qed.
Lemma head_run : run_body class_start g head_body = Ok (rev head_values ++ class_start).
Proof.
  unfold head_body. rewrite run_def. replace (all_found class_start g match sc_kind c with KStruct => defaults | _ => [] end) with (Ok tt) by (destruct (sc_kind c); [symmetry; exact Hdef|reflexivity..]).
  rewrite (run_decorated g _ "classmethod") by deco.
  rewrite (run_decorated g _ "classmethod") by deco.
  rewrite (run_decorated g _ "staticmethod") by deco.
  reflexivity.
Qed.
Lemma packing_runs : ~ In P (removelast (map lower_snake (map sf_name (sc_fields c)))) -> exists s, run_inner class_start g (packing_body packed c) = Ok s.
Proof.
  intros H. unfold packing_body. cbn [run_inner define].
  assert (K : forall s, lookup P s = None -> exists s', run_inner s g (map (fun f => (property_name (sf_name f), [Named P])) (filter packed (sc_fields c))) = Ok s').
  { intros s Hs. replace (map (fun f => (property_name (sf_name f), [Named P])) (filter packed (sc_fields c)))
      with (map (fun n => (n, [Named P])) (map (fun f => property_name (sf_name f)) (filter packed (sc_fields c)))) by (rewrite map_map; reflexivity).
    apply inner_properties; [exact Hg|exact Hs|]. intros X. apply removelast_filter in X. apply H. rewrite map_map. exact X. }
  destruct (sc_kind c); try (cbn [app]; apply K; reflexivity).
  cbn [app run_inner define]. rewrite (decorate_named g _ P Hg) by deco. apply K. reflexivity.
Qed.
Lemma factory_runs : exists s, run_inner class_start g factory_body = Ok s.
Proof. unfold factory_body. cbn [run_inner define]. rewrite (decorate_named g _ (lit "staticmethod") Hg) by deco. eexists. reflexivity. Qed.
Lemma tail_simple : (exists s, run_inner class_start g (packing_body packed c) = Ok s) -> Forall (simple g) tail_body.
Proof.
  intros Hp. unfold tail_body. apply Forall_app. split; [apply simple_plain|]. apply Forall_cons; [exact Hp|]. apply Forall_app. split.
  - apply Forall_forall. intros st H. apply in_flat_map in H. destruct H as (f & _ & H). unfold helper_statements in H. apply in_app_or in H.
    destruct (sf_indexed f), (sf_factory f); cbn [In] in H; repeat match goal with H : _ \/ _ |- _ => destruct H as [H|H] | H : False |- _ => destruct H end; subst st;
      first [split; reflexivity|exact factory_runs].
  - assert (A : Forall (simple g) (map (fun f => Assign (choice_tag_name (sf_name f))) (sc_fields c) ++ [Assign (lit "UNDEFINED_CHOICE")])).
    { apply Forall_forall. intros st H. apply in_app_or in H. destruct H as [H|[<-|[]]]; [apply in_map_iff in H; destruct H as (f & <- & _)|]; exact I. }
    destruct (sc_kind c); [apply Forall_nil|exact A..].
Qed.
Definition compound_values : namespace := head_values ++ flat_map segment_values (compound_segments c) ++ function_values ++ tag_values ++ map (effect g) tail_body.

(** Counting names *)
Definition count (l : list name) (x : name) : nat := count_occ (list_eq_dec ascii_dec) l x.
Lemma count_app l k x : count (l ++ k) x = (count l x + count k x)%nat. Proof. apply count_occ_app. Qed.
Lemma count_nil x : count [] x = 0%nat. Proof. reflexivity. Qed.
Lemma count_cons x a l : count (a :: l) x = (count [a] x + count l x)%nat. Proof. exact (count_app [a] l x). Qed.
Lemma count_fields x : forall l, count (map fst (flat_map segment_values (map field_segment l))) x =
  (count (map property_name (map sf_name l)) x + count (indicator_names l) x + count (flat_map (fun f => if sf_optional f then [resetter_name (sf_name f)] else []) l) x)%nat.
Proof.
  induction l as [|f l IH]; [reflexivity|]. unfold indicator_names in *. cbn [map flat_map]. rewrite map_app, !count_app, IH. cbn [map].
  unfold segment_values, field_segment. cbn [sg_name sg_setter sg_extra map fst]. rewrite map_map. cbn [fst]. rewrite map_id.
  rewrite (count_cons x (property_name (sf_name f)) (map property_name (map sf_name l))). destruct (sf_optional f), (sf_extended f); cbn [app];
    repeat match goal with |- context [count (?a :: ?b :: ?r) x] => rewrite (count_cons x a (b :: r)) end; rewrite ?count_nil; lia.
Qed.
Lemma count_params x l : count (map fst (flat_map segment_values (map param_segment l))) x = count (map property_name l) x.
Proof. f_equal. induction l as [|p l IH]; [reflexivity|]. cbn [map flat_map]. rewrite map_app, IH. reflexivity. Qed.
Lemma binds_helpers l : map binds (flat_map helper_statements l) =
  flat_map (fun f => (if sf_indexed f then [offset_checker_name (sf_name f); offset_setter_name (sf_name f)] else []) ++ (if sf_factory f then [element_factory_name (sf_name f)] else [])) l.
Proof. induction l as [|f l IH]; [reflexivity|]. cbn [flat_map]. rewrite map_app, IH. f_equal. unfold helper_statements. rewrite map_app. destruct (sf_indexed f), (sf_factory f); reflexivity. Qed.
Lemma compound_keys : sc_kind c <> KDatabase -> forall x, count (map fst compound_values) x = count (class_names c) x.
Proof.
  intros Hk x. unfold compound_values, class_names, compound_segments. rewrite !map_app, effect_key, flat_map_app, map_app, !count_app, count_params, count_fields.
  unfold tail_body. rewrite !map_app, binds_helpers, !count_app.
  assert (F : count (map fst function_values) x = count (map function_name (sc_functions c)) x). { unfold function_values. rewrite map_map. reflexivity. } rewrite F.
  assert (Q : map binds (map plain tail_plains) = tail_plains) by (rewrite map_map; apply map_id). rewrite Q.
  unfold tag_values, template_methods, head_values, tail_plains.
  destruct (sc_kind c) eqn:Ek; [| | |destruct (Hk eq_refl)]; rewrite ?map_app, ?count_app; cbn [map fst binds]; rewrite ?map_map; cbn [binds map]; rewrite ?map_app, ?count_app; cbn [map binds]; rewrite ?(map_map _ binds); cbn [binds];
    repeat match goal with |- context [count (?a :: ?b :: ?l) x] => rewrite (count_cons x a (b :: l)) end; rewrite ?(map_map sf_name); rewrite ?count_nil.
  - lia.
  - rewrite (count_cons x (lit "UNDEFINED_CHOICE") (map _ _)). repeat match goal with |- context [count (?a :: map ?f ?l) x] => rewrite (count_cons x a (map f l)) end. lia.
  - repeat match goal with |- context [count (?a :: map ?f ?l) x] => rewrite (count_cons x a (map f l)) end. lia.
Qed.

Lemma values_lookup (vals : namespace) s n v : (forall x, count (map fst vals) x = count (class_names c) x) -> agree s (rev vals ++ class_start) -> In (n, v) vals -> lookup n s = Some v.
Proof.
  intros Hc A H. rewrite (A n), lookup_app, (lookup_in n v); [reflexivity| |apply in_rev in H; exact H].
  rewrite map_rev. apply NoDup_rev. apply (NoDup_count_occ (list_eq_dec ascii_dec)). intros x. fold (count (map fst vals) x). rewrite Hc.
  apply (proj1 (NoDup_count_occ (list_eq_dec ascii_dec) (class_names c)) class_nodup x).
Qed.
Lemma property_not_is m : P <> lit "is_" ++ m. Proof. discriminate. Qed.
Lemma property_not_reset m : P <> lit "reset_" ++ m. Proof. discriminate. Qed.
Lemma names_sub n : In n (map lower_snake (sc_params c ++ map sf_name (sc_fields c))) -> In n (map lower_snake (scope_names c)).
Proof. unfold scope_names. rewrite app_assoc, (map_app _ _ (sc_functions c)). intros H. apply in_or_app. left. exact H. Qed.
Lemma functions_sub n : In n (map function_name (sc_functions c)) -> In n (map lower_snake (scope_names c)).
Proof. unfold scope_names. rewrite app_assoc, map_app. intros H. apply in_or_app. right. exact H. Qed.
Lemma in_removelast {B} (x : B) : forall l, In x (removelast l) -> In x l.
Proof. induction l as [|a l IH]; intros H; [destruct H|]. destruct l as [|b l]; [destruct H|]. destruct H as [H|H]; [left; exact H|right; apply IH, H]. Qed.
Lemma taken_segments : sc_kind c <> KDatabase -> ~ takes_decorator c -> ~ In P (removelast (map sg_name (compound_segments c))).
Proof.
  intros Hk H. rewrite segment_names. unfold takes_decorator in H. destruct (sc_kind c); [exact H| | |destruct (Hk eq_refl)].
  all: intros X; apply H, names_sub, in_removelast, X.
Qed.
Lemma lookup_head : lookup P (rev head_values ++ class_start) = None. Proof. reflexivity. Qed.
Lemma compound_ends : sc_kind c <> KDatabase -> ~ takes_decorator c -> ends g class_start (class_body defaults packed c) compound_values.
Proof.
  intros Hk Ht. rewrite compound_body by exact Hk. assert (Hs := taken_segments Hk Ht). apply ends_app; [eexists; split; [exact head_run|intros n; reflexivity]|]. intros s1 A1.
  assert (L1 : lookup P s1 = None) by (rewrite (A1 P); reflexivity).
  apply ends_app. { apply segments_run; [exact Hg|exact L1| |exact Hs]. intros x Hx. apply (extra_free P c x property_not_is property_not_reset Hx). }
  intros s2 A2. apply ends_app.
  { replace function_values with (map (effect g) (map plain (map function_name (sc_functions c)))) by (unfold function_values; rewrite !map_map; reflexivity). apply ends_simple, simple_plain. }
  intros s3 A3. apply ends_app.
  - unfold tag_body, tag_values.
    assert (L : sc_kind c <> KStruct -> lookup P s3 = None).
    { intros Hn. assert (Hp : ~ In P (map lower_snake (scope_names c))) by (unfold takes_decorator in Ht; destruct (sc_kind c); try exact Ht; [destruct (Hn eq_refl)|destruct (Hk eq_refl)]).
      rewrite (A3 P), lookup_app, lookup_none.
      - rewrite (A2 P), lookup_app, lookup_none; [exact L1|]. rewrite map_rev. intros X. apply in_rev in X. apply in_map_iff in X. destruct X as ([m v] & Em & X). cbn [fst] in Em. subst m.
        apply in_flat_map in X. destruct X as (z & Hz & [X|X]).
        + apply (f_equal fst) in X. cbn [fst] in X. apply Hp, names_sub. rewrite <- segment_names, <- X. apply in_map, Hz.
        + apply in_map_iff in X. destruct X as (q & Eq & X). apply (f_equal fst) in Eq. cbn [fst] in Eq. rewrite Eq in X. exact (extra_free P c z property_not_is property_not_reset Hz X).
      - rewrite map_rev. intros X. apply in_rev in X. unfold function_values in X. rewrite map_map in X. apply Hp, functions_sub, X. }
    destruct (sc_kind c) eqn:Ek; [eexists; split; [reflexivity|intros n; reflexivity]| | |destruct (Hk eq_refl)].
    all: apply ends_decorated; [exact Hg|left; reflexivity|apply L; discriminate].
  - intros s4 A4. apply ends_simple, tail_simple, packing_runs. intros X. apply Hs. rewrite segment_names, map_app.
    destruct (map lower_snake (map sf_name (sc_fields c))) as [|q r] eqn:E; [destruct X|]. rewrite removelast_app by discriminate. apply in_or_app. right. exact X.
Qed.
Lemma effect_in st : In st tail_body -> In (effect g st) compound_values.
Proof. intros H. unfold compound_values. apply in_or_app. right. apply in_or_app. right. apply in_or_app. right. apply in_or_app. right. apply in_map, H. Qed.
Lemma segments_in x e : In x (compound_segments c) -> In e (segment_values x) -> In e compound_values.
Proof. intros Hx He. unfold compound_values. apply in_or_app. right. apply in_or_app. left. apply in_flat_map. exists x. split; assumption. Qed.
Lemma param_in p : In p (sc_params c) -> In (param_segment p) (compound_segments c). Proof. intros H. apply in_or_app. left. apply in_map, H. Qed.
Lemma field_in f : In f (sc_fields c) -> In (field_segment f) (compound_segments c). Proof. intros H. apply in_or_app. right. apply in_map, H. Qed.
Lemma tail_plain n : In n tail_plains -> In (plain n) tail_body. Proof. intros H. apply in_or_app. left. apply in_map, H. Qed.
Lemma compound_members n v : sc_kind c <> KDatabase -> member_is c n v -> In (n, v) compound_values.
Proof.
  intros Hk H. destruct H as [p _ Hp|f _ Hf|f Hd|f _ Hf|f n _ Hf Ho Hn|f n _ Hf Ho ->|Ht|Hd|n _ Hn|Hd| |Hd| |n _ Hn|n Hd|f Ht Hf|f Hd]; try (exfalso; apply Hk; assumption).
  - apply (segments_in _ _ (param_in p Hp)). left. reflexivity.
  - apply (segments_in _ _ (field_in f Hf)). left. reflexivity.
  - unfold compound_values. apply in_or_app. right. apply in_or_app. right. apply in_or_app. left. unfold function_values. apply in_map_iff. exists f. split; [reflexivity|exact Hf].
  - apply (segments_in _ _ (field_in f Hf)). right. apply in_map_iff. exists n. split; [reflexivity|]. cbn [field_segment sg_extra]. rewrite Ho. apply in_or_app. right. exact Hn.
  - apply (segments_in _ _ (field_in f Hf)). right. apply in_map_iff. eexists. split; [reflexivity|]. cbn [field_segment sg_extra]. rewrite Ho. apply in_or_app. left. left. reflexivity.
  - unfold compound_values, tag_values. apply in_or_app. right. apply in_or_app. right. apply in_or_app. right. apply in_or_app. left. destruct Ht as [-> | ->]; left; reflexivity.
  - apply in_or_app. left. unfold head_values. cbn [In] in *. destruct Hn as [<-|[<-|[]]]; tauto.
  - apply in_or_app. left. unfold head_values. cbn [In]. tauto.
  - apply in_or_app. left. unfold head_values. cbn [In]. tauto.
  - cbn [map In] in Hn. destruct Hn as [<-|[<-|Hn]]; [apply in_or_app; left; unfold head_values; cbn [In]; tauto..|].
    apply (effect_in (plain n)), tail_plain. unfold tail_plains. cbn [map In]. tauto.
  - apply (effect_in (Assign (choice_tag_name (sf_name f)))). unfold tail_body. apply in_or_app. right. apply in_or_app. right. apply in_or_app. right.
    destruct Ht as [-> | ->]; apply in_or_app; left; apply (in_map (fun f => Assign (choice_tag_name (sf_name f)))), Hf.
Qed.
Lemma compound_works : sc_kind c <> KDatabase -> ~ takes_decorator c -> class_works defaults packed c g.
Proof.
  intros Hk Ht. destruct (compound_ends Hk Ht) as (s & E & A). exists s. split; [exact E|]. intros n v H.
  apply (values_lookup compound_values); [apply compound_keys, Hk|exact A|apply compound_members; assumption].
Qed.
Lemma compound_fails : sc_kind c <> KDatabase -> takes_decorator c -> ~ class_works defaults packed c g.
Proof.
  intros Hk Ht (s & E & M). rewrite compound_body in E by exact Hk. rewrite run_app, head_run, run_app in E.
  destruct (run_body (rev head_values ++ class_start) g (flat_map segment_body (compound_segments c))) as [s1|] eqn:E1; [|discriminate].
  assert (Hn : ~ In P (removelast (map sg_name (compound_segments c)))).
  { intros X. rewrite (segments_fail g Hg _ _ lookup_head) in E1; [discriminate| |exact X]. intros x Hx. exact (extra_free P c x property_not_is property_not_reset Hx). }
  destruct (sc_kind c) eqn:Ek; [rewrite segment_names in Hn; unfold takes_decorator in Ht; rewrite Ek in Ht; exact (Hn Ht)| | |destruct (Hk eq_refl)].
  all: unfold takes_decorator in Ht; rewrite Ek in Ht; rewrite run_app in E; rewrite run_simple in E by apply simple_plain; unfold tag_body in E; rewrite Ek in E; rewrite run_app in E.
  all: pose proof (names_nodup c Hacc) as D; unfold scope_names in Ht, D; rewrite app_assoc in Ht, D; rewrite map_app in Ht, D; apply in_app_or in Ht; apply nodup_app_inv in D; destruct D as (_ & _ & D).
  all: destruct Ht as [Ht|Ht].
  1,3: (destruct (segments_taken g P Hg (compound_segments c) (rev head_values ++ class_start) s1 lookup_head) as [b L];
        [intros x Hx; split; exact (extra_free P c x property_not_is property_not_reset Hx)|rewrite segment_names; exact Ht|exact E1|];
        rewrite (run_taken g _ "property" _ b) in E; [discriminate|]; rewrite lookup_app, lookup_none; [exact L|];
        rewrite map_rev; intros X; apply in_rev in X; rewrite effect_key, map_map in X; cbn [binds plain] in X; rewrite map_id in X; exact (D P Ht X)).
  all: assert (L : lookup P (rev (map (effect g) (map plain (map function_name (sc_functions c)))) ++ s1) = Some (VFunction P))
    by (rewrite lookup_app, (lookup_in P (VFunction P)); [reflexivity| |];
        [rewrite map_rev; apply NoDup_rev; rewrite effect_key, map_map; cbn [binds plain]; rewrite map_id;
         pose proof (names_nodup c Hacc) as D2; unfold scope_names in D2; rewrite app_assoc, map_app in D2; apply nodup_app_inv in D2; apply D2
        |apply -> in_rev; rewrite !map_map; apply in_map_iff in Ht; destruct Ht as (f & Ef & Hf); apply in_map_iff; exists f; split; [cbn [effect plain]; unfold function_name; rewrite Ef; reflexivity|exact Hf]]).
  all: cbn [run_body decorated all_found define] in E; unfold decorate at 1, look in E; rewrite L in E; cbn [call] in E.
  all: assert (K := M _ _ (is_choice_tag c ltac:(rewrite Ek; tauto)));
    rewrite (run_keeps g (lit "choice_tag") _ _ _ E) in K; [rewrite lookup_cons, eqn_refl in K; discriminate K|].
  all: unfold tail_body; rewrite Ek, !map_app, binds_helpers, !map_map; intros X; apply in_app_or in X; destruct X as [X|X];
    [cbn in X; repeat (destruct X as [X|X]; [discriminate X|]); destruct X|]; apply in_app_or in X; destruct X as [[X|[]]|X]; [discriminate X|];
    apply in_app_or in X; destruct X as [X|X];
    [apply (helpers_form c) in X; destruct X as (f & _ & [(_ & [X|X])|X]); discriminate X|];
    apply in_app_or in X; destruct X as [X|[X|[]]]; [apply in_map_iff in X; destruct X as (f & X & _); discriminate X|discriminate X].
Qed.

(** Databases *)
Definition base_head : list statement := [plain (lit "__init__"); decorated "classmethod" (lit "from_file"); decorated "staticmethod" (lit "type_info"); plain (lit "close")].
Definition base_head_values : namespace :=
  [(lit "__init__", VFunction (lit "__init__")); (lit "from_file", VClassMethod); (lit "type_info", VStaticMethod); (lit "close", VFunction (lit "close"))].
Definition base_middle : list name := map lit ["create_schema"; "delete_schema"; "_init_tables"]%string.
Definition base_tail : list statement := [plain (lit "_detach_databases"); Assign (lit "DATABASE_NAME")] ++ map (fun f => Assign (table_name_constant (sf_name f))) (sc_fields c).
Lemma base_body : sc_kind c = KDatabase -> class_body defaults packed c =
  base_head ++ flat_map segment_body (map table_segment (sc_fields c)) ++ [decorated "property" (lit "connection")] ++ map plain base_middle ++ [decorated "staticmethod" (lit "_attach_database")] ++ base_tail.
Proof. intros Hk. unfold class_body. rewrite Hk, <- tables_segments. reflexivity. Qed.
Definition base_values : namespace := base_head_values ++ flat_map segment_values (map table_segment (sc_fields c)) ++ [(lit "connection", VProperty false)] ++
  map (effect g) (map plain base_middle) ++ [(lit "_attach_database", VStaticMethod)] ++ map (effect g) base_tail.
Lemma base_head_run : run_body class_start g base_head = Ok (rev base_head_values ++ class_start).
Proof. unfold base_head, plain at 1. rewrite run_def. cbn [all_found]. rewrite (run_decorated g _ "classmethod") by deco. rewrite (run_decorated g _ "staticmethod") by deco. reflexivity. Qed.
Lemma table_names : map sg_name (map table_segment (sc_fields c)) = map lower_snake (map sf_name (sc_fields c)). Proof. rewrite !map_map. reflexivity. Qed.
Lemma table_extra d x : In x (map table_segment (sc_fields c)) -> ~ In d (sg_extra x). Proof. intros H. apply in_map_iff in H. destruct H as (f & <- & _). intros []. Qed.
Lemma table_values_keys : map fst (flat_map segment_values (map table_segment (sc_fields c))) = map lower_snake (map sf_name (sc_fields c)).
Proof. induction (sc_fields c) as [|f l IH]; [reflexivity|]. cbn [map flat_map]. rewrite map_app, IH. reflexivity. Qed.
Lemma table_free d s : ~ In d (map lower_snake (map sf_name (sc_fields c))) -> lookup d (rev (flat_map segment_values (map table_segment (sc_fields c))) ++ s) = lookup d s.
Proof. intros H. rewrite lookup_app, lookup_none; [reflexivity|]. rewrite map_rev, table_values_keys. intros X. apply in_rev in X. exact (H X). Qed.
Lemma base_ends : sc_kind c = KDatabase -> ~ takes_decorator c -> ends g class_start (class_body defaults packed c) base_values.
Proof.
  intros Hk Ht. unfold takes_decorator in Ht. rewrite Hk in Ht. rewrite base_body by exact Hk.
  apply ends_app; [eexists; split; [exact base_head_run|intros n; reflexivity]|]. intros s1 A1.
  apply ends_app. { apply segments_run; [exact Hg|rewrite (A1 P); reflexivity|intros x; apply table_extra|]. rewrite table_names. intros X. apply in_removelast in X. apply Ht. left. exact X. }
  intros s2 A2. apply ends_app. { apply (ends_decorated g s2 "property"); [exact Hg|left; reflexivity|]. rewrite (A2 P), table_free; [rewrite (A1 P); reflexivity|]. intros X. apply Ht. left. exact X. }
  intros s3 A3. apply ends_app; [apply ends_simple, simple_plain|]. intros s4 A4.
  apply ends_app.
  - apply (ends_decorated g s4 "staticmethod"); [exact Hg|right; right; reflexivity|]. rewrite (A4 (lit "staticmethod")). rewrite lookup_app, lookup_none by (intros X; cbn in X; repeat (destruct X as [X|X]; [discriminate X|]); destruct X).
    rewrite (A3 (lit "staticmethod")), lookup_app, lookup_none by (intros X; cbn in X; repeat (destruct X as [X|X]; [discriminate X|]); destruct X).
    rewrite (A2 (lit "staticmethod")), table_free; [rewrite (A1 (lit "staticmethod")); reflexivity|]. intros X. apply Ht. right. exact X.
  - intros s5 A5. apply ends_simple. unfold base_tail. apply Forall_cons; [split; reflexivity|]. apply Forall_cons; [exact I|]. apply Forall_forall. intros st H. apply in_map_iff in H. destruct H as (f & <- & _). exact I.
Qed.
Lemma base_keys : sc_kind c = KDatabase -> forall x, count (map fst base_values) x = count (class_names c) x.
Proof.
  intros Hk x. destruct (Hkind Hk) as (Hp & Hf & Hflags). unfold base_values, class_names. rewrite Hk, Hp, Hf.
  assert (I1 : indicator_names (sc_fields c) = []).
  { unfold indicator_names. clear -Hflags. induction (sc_fields c) as [|f l IH]; [reflexivity|]. cbn [flat_map]. destruct (Hflags f (or_introl eq_refl)) as (-> & -> & _ & _). apply IH. intros h Hh. apply Hflags. right. exact Hh. }
  assert (I2 : flat_map (fun f => if sf_optional f then [resetter_name (sf_name f)] else []) (sc_fields c) = []).
  { clear -Hflags. induction (sc_fields c) as [|f l IH]; [reflexivity|]. cbn [flat_map]. destruct (Hflags f (or_introl eq_refl)) as (-> & _ & _ & _). apply IH. intros h Hh. apply Hflags. right. exact Hh. }
  assert (I3 : flat_map (fun f => (if sf_indexed f then [offset_checker_name (sf_name f); offset_setter_name (sf_name f)] else []) ++ (if sf_factory f then [element_factory_name (sf_name f)] else [])) (sc_fields c) = []).
  { clear -Hflags. induction (sc_fields c) as [|f l IH]; [reflexivity|]. cbn [flat_map]. destruct (Hflags f (or_introl eq_refl)) as (_ & _ & -> & ->). apply IH. intros h Hh. apply Hflags. right. exact Hh. }
  rewrite I1, I2, I3. rewrite !map_app, !effect_key, table_values_keys. unfold base_tail. rewrite map_app, (map_map _ binds (sc_fields c)). cbn [binds].
  unfold base_head_values, base_middle, template_methods. cbn [map fst binds plain app].
  rewrite !(map_map sf_name). rewrite ?count_app.
  repeat match goal with |- context [count (?a :: ?b :: ?l) x] => rewrite (count_cons x a (b :: l)) end.
  unfold property_name, table_name_constant.
  repeat (match goal with |- context [count (?a :: ?l) x] => lazymatch l with [] => fail | _ => rewrite (count_cons x a l) end end; rewrite ?count_app). rewrite ?count_nil. lia.
Qed.
Lemma base_members n v : sc_kind c = KDatabase -> member_is c n v -> In (n, v) base_values.
Proof.
  intros Hk H. unfold base_values.
  destruct H as [p Hc|f Hc|f _ Hf|f Hc|f n Hc|f n Hc|Ht|_|n Hc|_| |_| |n Hc|n _ Hn|f Ht|f _ Hf]; try (exfalso; apply Hc, Hk); try (exfalso; rewrite Hk in Ht; destruct Ht; discriminate).
  - apply in_or_app. right. apply in_or_app. left. apply in_flat_map. exists (table_segment f). split; [apply in_map, Hf|left; reflexivity].
  - apply in_or_app. right. apply in_or_app. right. left. reflexivity.
  - apply in_or_app. left. unfold base_head_values. cbn [In]. tauto.
  - apply in_or_app. left. unfold base_head_values. cbn [In]. tauto.
  - do 4 (apply in_or_app; right). left. reflexivity.
  - apply in_or_app. left. unfold base_head_values. cbn [In]. tauto.
  - cbn [map In] in Hn. destruct Hn as [<-|Hn]; [apply in_or_app; left; unfold base_head_values; cbn [In]; tauto|]. do 3 (apply in_or_app; right). apply in_or_app. left.
    rewrite map_map. apply in_map_iff. exists n. split; [reflexivity|]. unfold base_middle. cbn [map In]. tauto.
  - do 5 (apply in_or_app; right). unfold base_tail. rewrite map_app. apply in_or_app. right. rewrite map_map. apply in_map_iff. exists f. split; [reflexivity|exact Hf].
Qed.
Lemma base_works : sc_kind c = KDatabase -> ~ takes_decorator c -> class_works defaults packed c g.
Proof.
  intros Hk Ht. destruct (base_ends Hk Ht) as (s & E & A). exists s. split; [exact E|]. intros n v H.
  apply (values_lookup base_values); [apply base_keys, Hk|exact A|apply base_members; assumption].
Qed.
Lemma base_fails : sc_kind c = KDatabase -> takes_decorator c -> ~ class_works defaults packed c g.
Proof.
  intros Hk Ht (s & E & _). unfold takes_decorator in Ht. rewrite Hk in Ht. rewrite base_body in E by exact Hk. rewrite run_app, base_head_run, run_app in E.
  destruct (run_body (rev base_head_values ++ class_start) g (flat_map segment_body (map table_segment (sc_fields c)))) as [s1|] eqn:E1; [|discriminate].
  assert (T : forall d, In d (map lower_snake (map sf_name (sc_fields c))) -> exists b, lookup d s1 = Some (VProperty b)).
  { intros d Hd. apply (segments_taken g d Hg (map table_segment (sc_fields c)) (rev base_head_values ++ class_start) s1 eq_refl); [|rewrite table_names; exact Hd|exact E1].
    intros x Hx. split; apply table_extra, Hx. }
  rewrite run_app in E. destruct (run_body s1 g [decorated "property" (lit "connection")]) as [s2|] eqn:E2; [|discriminate].
  destruct Ht as [Ht|Ht]; destruct (T _ Ht) as [b L].
  - rewrite (run_taken g s1 "property" _ b _ L) in E2. discriminate.
  - rewrite run_app, run_simple in E by apply simple_plain. cbn [app] in E. rewrite (run_taken g _ "staticmethod" _ b) in E; [discriminate|].
    rewrite lookup_app, lookup_none.
    + rewrite (run_keeps g (lit "staticmethod") _ _ _ E2); [exact L|]. intros [X|[]]. discriminate X.
    + rewrite map_rev. intros X. apply in_rev in X. cbn in X. repeat (destruct X as [X|X]; [discriminate X|]). destruct X.
Qed.
Lemma class_works_exactly : class_works defaults packed c g <-> ~ takes_decorator c.
Proof.
  destruct (sc_kind c) eqn:Ek; split; intros H.
  1,3,5: intros Ht; revert H; apply compound_fails; [rewrite Ek; discriminate|exact Ht].
  4: intros Ht; revert H; apply base_fails; assumption.
  1,2,3: apply compound_works; [rewrite Ek; discriminate|exact H].
  apply base_works; assumption.
Qed.
End Class.

(** ** Modules and methods *)
Lemma globals_lookup found : forall imports n, lookup n (module_globals found imports) = if existsb (eqn n) imports then match found n with Some o => Some (VModule o) | None => None end else None.
Proof.
  induction imports as [|m imports IH]; intros n; [reflexivity|]. cbn [module_globals existsb]. destruct (eqn n m) eqn:E; cbn [orb].
  - apply eqn_spec in E. subst m. destruct (found n) eqn:F; [rewrite lookup_cons, eqn_refl; reflexivity|]. rewrite IH, F. destruct (existsb (eqn n) imports); reflexivity.
  - destruct (found m); [rewrite lookup_cons, E|]; apply IH.
Qed.
Lemma existsb_false x (l : list name) : ~ In x l -> existsb (eqn x) l = false.
Proof. intros H. destruct (existsb (eqn x) l) eqn:E; [apply existsb_eqn in E; contradiction|reflexivity]. Qed.
Section Modules.
Context (k : kind) (tops : list name) (found : name -> option origin) (Hf : finds k tops found) (Ht : forall t, In t tops -> ~ own_name k t).
Let g := module_globals found (imported k tops).
Lemma top_found t : In t tops -> lookup t g = Some (VModule (Generated t)).
Proof.
  intros H. unfold g. rewrite globals_lookup. rewrite (proj2 (existsb_eqn t (imported k tops))) by (unfold imported; apply in_or_app; right; exact H).
  destruct Hf as [F1 F2]. destruct (found t) as [o|] eqn:E; [|destruct (F1 t); [apply in_or_app; right; exact H|exact E]].
  destruct (F2 t o E) as [[_ X]|[-> _]]; [destruct (Ht t H); left; exact X|reflexivity].
Qed.
Lemma library_found n : In n (libraries k) -> lookup n g = Some (VModule (Library n)).
Proof.
  intros H. unfold g. rewrite globals_lookup. rewrite (proj2 (existsb_eqn n (imported k tops))) by (unfold imported; apply in_or_app; left; exact H).
  destruct Hf as [F1 F2]. destruct (found n) as [o|] eqn:E; [|destruct (F1 n); [apply in_or_app; left; exact H|exact E]].
  destruct (F2 n o E) as [[-> _]|[_ X]]; [reflexivity|destruct (Ht n X); left; exact H].
Qed.
Lemma library_no_builtin n : In n (libraries k) -> ~ In n builtin_names.
Proof. intros H. apply not_existsb. destruct k; cbn in H; repeat (destruct H as [<-|H]); try contradiction; reflexivity. Qed.
Lemma not_global n : ~ In n tops -> ~ In n (libraries k) -> lookup n g = None.
Proof.
  intros H1 H2. unfold g. rewrite globals_lookup, existsb_false; [reflexivity|]. unfold imported. intros H. apply in_app_or in H. tauto.
Qed.
Lemma builtin_not_global n : In n builtin_names -> lookup n g = None.
Proof. intros H. apply not_global; [intros X; apply (Ht n X); right; left; exact H|]. intros X. exact (library_no_builtin n X H). Qed.
Lemma builtin_found n : In n builtin_names -> lookup n python_builtins = Some (VBuiltin n).
Proof. intros H. unfold builtin_names in H. cbn [map In] in H. repeat (destruct H as [<-|H]; [reflexivity|]). destruct H. Qed.
Lemma globals_clean : clean g.
Proof. repeat split; apply builtin_not_global; cbn [builtin_names map In]; tauto. Qed.
Lemma resolve_means locals n : ~ In n locals -> means k tops (resolve locals g n) n.
Proof.
  intros H. unfold resolve. rewrite existsb_false by exact H. split; [|split]; intros X.
  - rewrite (top_found n X). reflexivity.
  - rewrite (library_found n X). reflexivity.
  - rewrite (builtin_not_global n X), (builtin_found n X). reflexivity.
Qed.
Lemma look_means n : n <> lit "__module__" -> n <> lit "__qualname__" -> In n (tops ++ libraries k ++ builtin_names) -> exists v, look class_start g n = Ok v /\ means k tops (Some v) n.
Proof.
  intros H1 H2 H. unfold look. assert (E : lookup n class_start = None). { unfold class_start. rewrite !lookup_cons, !eqn_neq by assumption. reflexivity. } rewrite E.
  assert (M := resolve_means [] n (fun X => X)). unfold resolve in M. cbn [existsb] in M.
  apply in_app_or in H. destruct H as [H|H]; [rewrite (top_found n H) in *; eexists; split; [reflexivity|exact M]|].
  apply in_app_or in H. destruct H as [H|H]; [rewrite (library_found n H) in *; eexists; split; [reflexivity|exact M]|].
  rewrite (builtin_not_global n H), (builtin_found n H) in *. eexists. split; [reflexivity|exact M].
Qed.
Lemma known_name n : In n (tops ++ libraries k ++ builtin_names) -> n <> lit "__module__" /\ n <> lit "__qualname__".
Proof.
  intros H. apply in_app_or in H. destruct H as [H|H].
  - specialize (Ht n H). unfold own_name in Ht. split; intros E; apply Ht; tauto.
  - assert (K : forallb (fun n => negb (eqn n (lit "__module__")) && negb (eqn n (lit "__qualname__"))) (libraries k ++ builtin_names) = true) by (destruct k; reflexivity).
    rewrite forallb_forall in K. specialize (K n H). apply andb_prop in K. destruct K as [K1 K2]. split; intros E; [rewrite E in K1; discriminate K1|rewrite E in K2; discriminate K2].
Qed.
Lemma defaults_found defaults : Forall (fun n => In n (tops ++ libraries k ++ builtin_names)) defaults -> all_found class_start g defaults = Ok tt.
Proof.
  induction 1 as [|n l H _ IH]; [reflexivity|]. cbn [all_found]. destruct (known_name n H) as [H1 H2]. destruct (look_means n H1 H2 H) as (v & -> & _). exact IH.
Qed.
End Modules.

Lemma class_body_works c tops found defaults packed : scope_identifiers c -> scope_accepted c = true -> no_resetter_clash c -> no_offset_clash c -> well_kinded c ->
  finds (sc_kind c) tops found -> (forall t, In t tops -> ~ own_name (sc_kind c) t) -> Forall (fun n => In n (tops ++ libraries (sc_kind c) ++ builtin_names)) defaults ->
  (class_works defaults packed c (module_globals found (imported (sc_kind c) tops)) <-> ~ takes_decorator c) /\
  Forall (fun n => exists v, look class_start (module_globals found (imported (sc_kind c) tops)) n = Ok v /\ means (sc_kind c) tops (Some v) n) defaults.
Proof.
  intros H1 H2 H3 H4 H5 Hf Ht Hd. split.
  - apply class_works_exactly; try assumption; [apply globals_clean; assumption|apply defaults_found; assumption].
  - apply Forall_forall. intros n Hn. rewrite Forall_forall in Hd. destruct (known_name (sc_kind c) tops found Hf Ht n (Hd n Hn)) as [X1 X2]. apply look_means; [exact Hf|exact Ht|exact X1|exact X2|exact (Hd n Hn)].
Qed.

(** Methods *)
Lemma args_map (c : scope) : map (fun n => lower_snake n ++ lit "_") (sc_params c ++ map sf_name (sc_fields c)) = map argument_name (sc_params c) ++ map argument_name (map sf_name (sc_fields c)).
Proof. rewrite map_app. reflexivity. Qed.
Lemma method_locals c m t : In m (class_methods c) -> me_schema m = true -> In t (me_locals m) -> In t (local_names c) \/ top_accepted t = false.
Proof.
  intros Hm Hs H. unfold class_methods in Hm.
  assert (A : sc_kind c <> KDatabase -> forall x, In x (map argument_name (sc_params c) ++ map argument_name (map sf_name (sc_fields c))) -> In x (local_names c)).
  { intros Hk x Hx. unfold local_names. apply in_or_app. right. rewrite args_map. destruct (sc_kind c); try exact Hx. destruct (Hk eq_refl). }
  unfold local_names in *. destruct (sc_kind c) eqn:Ek; cbn [app In] in Hm.
  4: { repeat (destruct Hm as [<-|Hm]; [cbn [me_schema method_of] in Hs; try discriminate Hs; cbn [me_locals method_of] in H; rewrite app_nil_r in H; left; rewrite app_nil_r; cbn [map In] in *; tauto|]). destruct Hm. }
  all: specialize (A ltac:(discriminate)); repeat (destruct Hm as [<-|Hm];
    [cbn [me_schema method_of] in Hs; first [discriminate Hs|cbn [me_locals method_of] in H; apply in_app_or in H; destruct H as [H|H];
     [cbn [map In] in H; repeat (destruct H as [<-|H]; [first [right; reflexivity|left; apply in_or_app; left; cbn [map In]; tauto]|]); try contradiction
     |first [contradiction|left; apply in_or_app; right; rewrite args_map; first [exact H|apply in_or_app; right; exact H]]]]|]).
  all: apply in_map_iff in Hm; destruct Hm as (a & <- & Ha); cbn [me_locals method_of] in H; apply in_app_or in H; destruct H as [[<-|[]]|[<-|[]]]; left;
    [apply in_or_app; left; cbn [map In]; tauto|apply A; apply in_or_app; right; exact Ha].
Qed.
Ltac has_local := split; [reflexivity|cbn [me_locals method_of map app In]; tauto].
Lemma local_method c t : In t (local_names c) -> exists m, In m (class_methods c) /\ me_schema m = true /\ In t (me_locals m).
Proof.
  intros H. unfold local_names in H. apply in_app_or in H. unfold class_methods. destruct (sc_kind c) eqn:Ek.
  4: { destruct H as [H|[]]. cbn [map In] in H.
       repeat (destruct H as [<-|H]; [first [eexists; split; [do 2 right; left; reflexivity|has_local]|eexists; split; [do 3 right; left; reflexivity|has_local]]|]). destruct H. }
  all: destruct H as [H|H]; [|rewrite args_map in H; eexists; split; [left; reflexivity|split; [reflexivity|cbn [me_locals method_of]; apply in_or_app; right; exact H]]].
  all: cbn [map In] in H.
  all: repeat (destruct H as [<-|H]; [
     first [eexists; split; [do 2 right; left; reflexivity|has_local]
           |eexists; split; [do 3 right; left; reflexivity|has_local]
           |eexists; split; [do 4 right; left; reflexivity|has_local]
           |eexists; split; [do 5 right; left; reflexivity|has_local]
           |eexists; split; [do 7 right; left; reflexivity|has_local]
           |eexists; split; [do 9 right; left; reflexivity|has_local]
           |eexists; split; [do 10 right; left; reflexivity|has_local]
           |eexists; split; [do 11 right; left; reflexivity|has_local]]|]); destruct H.
Qed.
(** A name the method uses itself is never local in it *)
Lemma argument_ends a n : In a (map argument_name n) -> exists l, a = l ++ lit "_".
Proof. intros H. apply in_map_iff in H. destruct H as (x & <- & _). eexists. reflexivity. Qed.
Definition used_names : list name := map lit ["zserio"; "len"; "isinstance"; "object"; "apsw"]%string.
Lemma used_no_argument l : ~ In (l ++ lit "_") used_names.
Proof.
  intros H. unfold used_names in H. cbn [map In] in H.
  assert (A : forall n, last n " "%char <> "_"%char -> n <> l ++ lit "_").
  { intros n Hn E. apply Hn. rewrite E. apply last_last. }
  repeat (destruct H as [H|H]; [revert H; apply A; vm_compute; discriminate|]). destruct H.
Qed.
Lemma method_uses c m n : In m (class_methods c) -> In n (me_uses m) -> In n used_names /\ In n (libraries (sc_kind c) ++ builtin_names) /\ ~ In n (me_locals m).
Proof.
  intros Hm Hn. unfold class_methods in Hm.
  assert (P : forall n l, In n used_names -> In n (map argument_name l) -> False).
  { intros x l Hx Hl. apply argument_ends in Hl. destruct Hl as (y & ->). exact (used_no_argument _ Hx). }
  assert (Q : forall n x, In n used_names -> n = argument_name x -> False).
  { intros y x Hy ->. exact (used_no_argument _ Hy). }
  destruct (sc_kind c) eqn:Ek; cbn [app In] in Hm.
  4: { repeat (destruct Hm as [<-|Hm]; [cbn [me_uses method_of map In] in Hn; repeat (destruct Hn as [<-|Hn];
        [split; [cbn [used_names map In]; tauto|split; [vm_compute; tauto|vm_compute; intuition discriminate]]|]); destruct Hn|]). destruct Hm. }
  all: repeat (destruct Hm as [<-|Hm]; [cbn [me_uses method_of map In] in Hn; repeat (destruct Hn as [<-|Hn];
        [match goal with |- In ?u _ /\ _ => assert (U : In u used_names) by (cbn [used_names map In]; tauto) end;
         split; [exact U|split; [vm_compute; tauto|]]; cbn [me_locals method_of]; intros X; apply in_app_or in X; destruct X as [X|X];
         [vm_compute in X; intuition discriminate|first [contradiction|exact (P _ _ U X)|apply in_app_or in X; destruct X as [X|X]; exact (P _ _ U X)]]|]); destruct Hn|]).
  all: apply in_map_iff in Hm; destruct Hm as (a & <- & Ha); cbn [me_uses method_of map In] in Hn; repeat (destruct Hn as [<-|Hn];
        [match goal with |- In ?u _ /\ _ => assert (U : In u used_names) by (cbn [used_names map In]; tauto) end;
         split; [exact U|split; [vm_compute; tauto|]]; cbn [me_locals method_of]; intros X; apply in_app_or in X; destruct X as [X|[X|[]]];
         [vm_compute in X; intuition discriminate|rewrite X in Ha; exact (P _ _ U Ha)]|]); destruct Hn.
Qed.

Section Methods.
  Variable c : scope.
  Variable tops : list name.
  Variable found : name -> option origin.
  Hypothesis Hf : finds (sc_kind c) tops found.
  Hypothesis Ht : forall t, In t tops -> ~ own_name (sc_kind c) t.
  Let g := module_globals found (imported (sc_kind c) tops).
  Lemma packages_in_methods t : In t tops -> top_accepted t = true ->
    ((forall m, In m (class_methods c) -> me_schema m = true -> means_package (resolve (me_locals m) g t) t) <-> ~ In t (local_names c)).
  Proof.
    intros Hin Hacc. split.
    - intros H Hl. destruct (local_method _ _ Hl) as (m & Hm & Hs & Hlm). specialize (H m Hm Hs).
      unfold means_package, resolve in H. rewrite (proj2 (existsb_exists (eqn t) _) (ex_intro _ t (conj Hlm (eqn_refl t)))) in H. discriminate H.
    - intros Hn m Hm Hs. apply (resolve_means (sc_kind c) tops found Hf Ht (me_locals m) t); [|exact Hin].
      intros X. destruct (method_locals _ _ _ Hm Hs X) as [Y|Y]; [exact (Hn Y)|rewrite Hacc in Y; discriminate Y].
  Qed.
  Lemma own_names_in_methods m n : In m (class_methods c) -> In n (me_uses m) ->
    (In n (libraries (sc_kind c)) \/ In n builtin_names) /\ (In n (libraries (sc_kind c)) -> means_library (resolve (me_locals m) g n) n) /\ (In n builtin_names -> means_builtin (resolve (me_locals m) g n) n).
  Proof.
    intros Hm Hn. destruct (method_uses _ _ _ Hm Hn) as (_ & Hk & Hl). split; [apply in_app_or; exact Hk|].
    pose proof (resolve_means (sc_kind c) tops found Hf Ht (me_locals m) n Hl) as (_ & A & B). split; [exact A|exact B].
  Qed.
End Methods.
