(** Proofs about names and paths in expressions *)
From Coq Require Import String Ascii Lia.
From Verif Require Import Base ModelPackages SpecPackages PackagesProofs ModelNames ModelPaths SpecPaths.
Local Open Scope string_scope.
Local Open Scope list_scope.
Local Open Scope Z_scope.

(** ** Parsing *)
Definition stops (r : list tok) : Prop := match r with (KDot | KLp | KLb) :: _ => False | _ => True end.
Definition Prim (ts : list tok) (p : py) : Prop := exists n, forall k r, exists k', (k <= k')%nat /\ prim (n + k) (ts ++ r) = post k' p r.
Definition Left (ts : list tok) (p : py) : Prop := exists n, forall k r, stops r -> exists k', (k <= k')%nat /\ parse (n + k) (ts ++ r) = plus k' p r.

Lemma post_stops k a r : stops r -> post (Datatypes.S k) a r = Some (a, r).
Proof. intros H. destruct r as [|[| | | | | | |] r]; cbn in *; tauto. Qed.
Lemma prim_left ts p : Prim ts p -> Left ts p.
Proof.
  intros (n & H). exists (Datatypes.S (Datatypes.S n)). intros k r St. destruct (H (Datatypes.S k) r) as (k' & L & E). destruct k' as [|k']; [lia|].
  exists (n + Datatypes.S k)%nat. split; [lia|]. replace (Datatypes.S (Datatypes.S n) + k)%nat with (Datatypes.S (n + Datatypes.S k)) by lia.
  cbn [parse]. rewrite E, post_stops by exact St. reflexivity.
Qed.
Lemma left_closed ts p c : Left ts p -> (c = KRp \/ c = KRb) -> exists n, forall k r, parse (n + k) (ts ++ c :: r) = Some (p, c :: r).
Proof.
  intros (n & H) C. exists (n + 1)%nat. intros k r. destruct (H (1 + k)%nat (c :: r)) as (k' & L & E); [destruct C; subst; exact I|].
  replace (n + 1 + k)%nat with (n + (1 + k))%nat by lia. rewrite E. destruct k'; [lia|]. destruct C; subst; reflexivity.
Qed.
Lemma left_expression ts p : Left ts p -> is_expression ts p.
Proof.
  intros (n & H). destruct (H 1%nat [] I) as (k' & L & E). exists (n + 1)%nat. rewrite app_nil_r in E. rewrite E. destruct k'; [lia|]. reflexivity.
Qed.
Lemma prim_name x : Prim [KName x] (PName x).
Proof. exists 1%nat. intros k r. exists k. split; [lia|]. reflexivity. Qed.
Lemma prim_num z : Prim [KNum z] (PNum z).
Proof. exists 1%nat. intros k r. exists k. split; [lia|]. reflexivity. Qed.
Lemma prim_paren ts p : Left ts p -> Prim (KLp :: ts ++ [KRp]) p.
Proof.
  intros H. destruct (left_closed ts p KRp H (or_introl eq_refl)) as (n & E). exists (Datatypes.S n). intros k r. exists (n + k)%nat. split; [lia|].
  cbn [prim plus Nat.add app]. rewrite <- app_assoc. cbn [app]. rewrite E. reflexivity.
Qed.
Lemma prim_attr ts p x : Prim ts p -> Prim (ts ++ [KDot; KName x]) (PAttr p x).
Proof.
  intros (n & H). exists (n + 1)%nat. intros k r. destruct (H (1 + k)%nat (KDot :: KName x :: r)) as (k' & L & E). destruct k' as [|k']; [lia|]. exists k'. split; [lia|].
  rewrite <- app_assoc. cbn [app]. replace (n + 1 + k)%nat with (n + (1 + k))%nat by lia. rewrite E. reflexivity.
Qed.
Lemma prim_call ts p : Prim ts p -> Prim (ts ++ [KLp; KRp]) (PCall p).
Proof.
  intros (n & H). exists (n + 1)%nat. intros k r. destruct (H (1 + k)%nat (KLp :: KRp :: r)) as (k' & L & E). destruct k' as [|k']; [lia|]. exists k'. split; [lia|].
  rewrite <- app_assoc. cbn [app]. replace (n + 1 + k)%nat with (n + (1 + k))%nat by lia. rewrite E. reflexivity.
Qed.
Lemma prim_item ts p us q : Prim ts p -> Left us q -> Prim (ts ++ KLb :: us ++ [KRb]) (PItem p q).
Proof.
  intros (n & H) U. destruct (left_closed us q KRb U (or_intror eq_refl)) as (m & F). exists (n + 1 + m)%nat. intros k r.
  destruct (H (1 + m + k)%nat (KLb :: us ++ KRb :: r)) as (k' & L & E). destruct k' as [|k']; [lia|]. exists k'. split; [lia|].
  rewrite <- app_assoc. cbn [app]. rewrite <- app_assoc. cbn [app]. replace (n + 1 + m + k)%nat with (n + (1 + m + k))%nat by lia. rewrite E. cbn [post].
  replace k' with (m + (k' - m))%nat at 1 by lia. rewrite F. reflexivity.
Qed.
Lemma left_plus ts p us q : Left ts p -> Prim us q -> Left (ts ++ KPlus :: us) (PPlus p q).
Proof.
  intros (n & H) (m & F). exists (n + 2 + m)%nat. intros k r St. destruct (H (2 + m + k)%nat (KPlus :: us ++ r) I) as (k' & L & E). destruct k' as [|k']; [lia|].
  exists k'. split; [lia|]. rewrite <- app_assoc. cbn [app]. replace (n + 2 + m + k)%nat with (n + (2 + m + k))%nat by lia. rewrite E. cbn [plus].
  destruct (F (k' - m)%nat r) as (k2 & L2 & E2). destruct k2 as [|k2]; [lia|]. replace (m + (k' - m))%nat with k' in E2 by lia. rewrite E2, post_stops by exact St. reflexivity.
Qed.

(** The text of an expression is that of one expression. *)
Lemma more_fuel k :
  (forall ts r, parse k ts = Some r -> parse (Datatypes.S k) ts = Some r) /\ (forall a ts r, plus k a ts = Some r -> plus (Datatypes.S k) a ts = Some r) /\
  (forall ts r, prim k ts = Some r -> prim (Datatypes.S k) ts = Some r) /\ (forall a ts r, post k a ts = Some r -> post (Datatypes.S k) a ts = Some r).
Proof.
  induction k as [|k (A & B & C & E)]; [repeat split; intros; discriminate|]. split; [|split; [|split]].
  - intros ts r H. cbn [parse] in H. destruct (prim k ts) as [[a u]|] eqn:F; [|discriminate]. apply C in F. apply B in H.
    change (match prim (Datatypes.S k) ts with Some (a, r) => plus (Datatypes.S k) a r | None => None end = Some r). rewrite F. exact H.
  - intros a ts r H. destruct ts as [|[| | | | | | |] ts]; try exact H. cbn [plus] in H. destruct (prim k ts) as [[b u]|] eqn:F; [|discriminate]. apply C in F. apply B in H.
    change (match prim (Datatypes.S k) ts with Some (b, r) => plus (Datatypes.S k) (PPlus a b) r | None => None end = Some r). rewrite F. exact H.
  - intros ts r H. destruct ts as [|[x|z| | | | | |] ts]; try discriminate H.
    + apply E in H. exact H.
    + apply E in H. exact H.
    + cbn [prim] in H. destruct (parse k ts) as [[a [|[| | | | | | |] u]]|] eqn:F; try discriminate H. apply A in F. apply E in H.
      change (match parse (Datatypes.S k) ts with Some (a, KRp :: r) => post (Datatypes.S k) a r | _ => None end = Some r). rewrite F. exact H.
  - intros a ts r H. destruct ts as [|[x|z| | | | | |] ts]; try exact H.
    + destruct ts as [|[x|z| | | | | |] ts]; try discriminate H. apply E in H. exact H.
    + destruct ts as [|[x|z| | | | | |] ts]; try discriminate H. apply E in H. exact H.
    + cbn [post] in H. destruct (parse k ts) as [[i [|[| | | | | | |] u]]|] eqn:F; try discriminate H. apply A in F. apply E in H.
      change (match parse (Datatypes.S k) ts with Some (i, KRb :: r) => post (Datatypes.S k) (PItem a i) r | _ => None end = Some r). rewrite F. exact H.
Qed.
Lemma much_fuel j k ts r : parse k ts = Some r -> parse (j + k) ts = Some r.
Proof. intros H. induction j as [|j IH]; [exact H|]. exact (proj1 (more_fuel _) _ _ IH). Qed.
Lemma one_expression ts p q : is_expression ts p -> is_expression ts q -> p = q.
Proof. intros (j & A) (k & B). apply (much_fuel k) in A. apply (much_fuel j) in B. rewrite (Nat.add_comm j k) in B. congruence. Qed.

(** ** Names that are written together *)
Definition is_name (t : tok) : bool := match t with KName _ => true | _ => false end.
Lemma join_op a o b : is_name o = false -> join (a ++ o :: b) = join a ++ o :: join b.
Proof.
  intros O. induction a as [|t a IH]; [destruct o; try discriminate O; reflexivity|]. destruct t; cbn [join app]; rewrite IH; try reflexivity.
  destruct (join a) as [|[] c]; cbn [app]; try reflexivity. destruct o; try discriminate O; reflexivity.
Qed.
Definition joined (ts : list tok) : Prop := join ts = ts.
Lemma joined_op a o b : is_name o = false -> joined a -> joined b -> joined (a ++ o :: b).
Proof. unfold joined. intros O A B. rewrite join_op by exact O. congruence. Qed.

(** ** Paths of modules *)
Definition path (x : string) (l : list string) : py := fold_left PAttr l (PName x).
Lemma prim_path l : forall x, Prim (ModelPaths.dotted (x :: l)) (path x l) /\ joined (ModelPaths.dotted (x :: l)).
Proof.
  assert (G : forall l ts p, Prim ts p -> joined ts -> Prim (ts ++ flat_map (fun y => [KDot; KName y]) l) (fold_left PAttr l p) /\ joined (ts ++ flat_map (fun y => [KDot; KName y]) l)).
  { clear l. induction l as [|y l IH]; intros ts p H J; [cbn; rewrite app_nil_r; auto|]. cbn [flat_map fold_left]. rewrite app_assoc. apply IH.
    - apply prim_attr. exact H.
    - cbn [app]. apply joined_op; [reflexivity|exact J|reflexivity]. }
  assert (F : forall l x, ModelPaths.dotted (x :: l) = [KName x] ++ flat_map (fun y => [KDot; KName y]) l).
  { induction l0 as [|y l0 IH]; intros x; [reflexivity|]. cbn [ModelPaths.dotted]. cbn [ModelPaths.dotted] in IH. rewrite (IH y). reflexivity. }
  intros x. rewrite F. apply G; [apply prim_name|reflexivity].
Qed.
Lemma path_app x l m : fold_left PAttr m (path x l) = path x (l ++ m).
Proof. unfold path. rewrite fold_left_app. reflexivity. Qed.

Lemma build_dot b a x : fst (build b (XDot a x)) = TDot (if b then NoFlag else TopLevelDot) (fst (build true a)) x.
Proof. cbn [build]. destruct (build true a). reflexivity. Qed.
Lemma build_paren b a : fst (build b (XParen a)) = TParen (fst (build b a)).
Proof. cbn [build]. destruct (build b a). reflexivity. Qed.
Lemma build_call b a : fst (build b (XCall a)) = TCall (fst (build b a)).
Proof. cbn [build]. destruct (build b a). reflexivity. Qed.
Lemma build_item b a i : exists c, fst (build b (XItem a i)) = TItem (fst (build b a)) (fst (build c i)).
Proof. cbn [build]. destruct (build b a) as [t d]. exists d. cbn. destruct (build d i). reflexivity. Qed.
Lemma build_plus b a i : exists c, fst (build b (XPlus a i)) = TPlus (fst (build b a)) (fst (build c i)).
Proof. cbn [build]. destruct (build b a) as [t d]. exists d. cbn. destruct (build d i). reflexivity. Qed.

Lemma assoc_in {A} x (l : list (string * A)) a : assoc x l = Some a -> In (x, a) l.
Proof. induction l as [|[y b] l IH]; [discriminate|]. cbn. destruct (String.eqb_spec x y); [intros [= ->]; subst; auto|auto]. Qed.
Lemma in_assoc {A} x (l : list (string * A)) a : NoDup (map fst l) -> In (x, a) l -> assoc x l = Some a.
Proof.
  induction l as [|[y b] l IH]; [intros _ []|]. cbn. intros N [[= -> ->]|H]; [rewrite String.eqb_refl; reflexivity|]. inversion_clear N as [|? ? X Y].
  destruct (String.eqb_spec x y); [|auto]. subst. exfalso. apply X. apply (in_map fst) in H. exact H.
Qed.

Section Proofs.
Context (S : schema) (P : policy).

(** ** Names of packages *)
Section Packages.
Context (l : list import) (R : resolve_imports (d_packages S) l = Some (d_imports S)) (NC : names_checked (d_packages S)).

Lemma look_lower q x : has_upper x = false -> look S q x = Unknown.
Proof. intros H. exact (lower_unknown (d_packages S) (d_here S) l (d_imports S) R NC q x H). Qed.
Lemma look_qualified q n s : q <> [] -> look S q n = Found s -> s = (q, n) /\ symbol_of (d_packages S) q n.
Proof.
  intros Q H. unfold look, visible in H. destruct (all_visible (d_packages S) (d_here S) (d_imports S) q n) as [|a [|b t]] eqn:E; try discriminate H. injection H as <-.
  assert (X : In a (all_visible (d_packages S) (d_here S) (d_imports S) q n)) by (rewrite E; left; reflexivity). clear E. unfold all_visible in X.
  assert (Y : In a (local_symbol (d_packages S) (d_here S) q n) \/ In a (from_single_imports (d_imports S) q n) \/ In a (from_imported_packages (d_packages S) (d_imports S) q n)).
  { destruct (local_symbol _ _ q n ++ from_single_imports _ q n) as [|c u] eqn:F; [auto|]. rewrite <- F in X. apply in_app_or in X. tauto. }
  clear X. destruct Y as [Y|[Y|Y]].
  - apply local_in in Y. destruct Y as (-> & Sy & [Z|Z]); [contradiction|]. subst q. auto.
  - apply (singles_in _ l _ R) in Y. destruct Y as (Y & (Z & _) & [U|U]); [contradiction|]. subst. split; [destruct a; reflexivity|]. exact (single_defined _ l _ R _ _ Z).
  - apply (wild_in _ l _ R) in Y. destruct Y as (Y & (Z & V) & [U|U]); [contradiction|]. subst. split; [destruct a; reflexivity|exact V].
Qed.

Lemma package_prefix a q y : spells a q y -> Forall (fun n => has_upper n = false) (q ++ [y]) -> find S (hd y q) = None ->
  evaluate S (fst (build true a)) = Some (unresolved (q ++ [y])) /\ emit S P true (fst (build true a)) = [].
Proof.
  intros H. induction H as [x|a q y x H IH]; intros L F.
  - cbn in F. cbn [build fst evaluate emit app]. rewrite F, look_lower by (inversion L; assumption). auto.
  - rewrite build_dot. apply Forall_app in L. destruct L as (L & Lx). assert (F' : find S (hd y q) = None) by (destruct q; exact F). destruct (IH L F') as (E & M).
    cbn [evaluate emit]. rewrite E. cbn [i_type i_unres unresolved]. rewrite look_lower by (inversion Lx; assumption). rewrite M. auto.
Qed.
Lemma refers_evaluates e s : refers S e s -> forall b, evaluate S (fst (build b e)) = package_info S s /\ forall inp, emit S P inp (fst (build b e)) = symbol_tokens S s.
Proof.
  intros (q & n & Sp & F & L) b. destruct Sp as [x|a q y x Sp].
  - cbn in F, L. cbn [build fst evaluate emit]. rewrite F, L. auto.
  - assert (W : written (d_top S) (q ++ [y]) = d_top S ++ q ++ [y]) by (destruct q; reflexivity). rewrite W in L.
    assert (N : d_top S ++ q ++ [y] <> []) by (destruct (d_top S), q; discriminate). destruct (look_qualified _ _ _ N L) as (-> & (symbols & k & D & _)).
    destruct (NC _ _ D) as (Lo & _). apply Forall_app in Lo. destruct Lo as (_ & Lo). assert (F' : find S (hd y q) = None) by (destruct q; exact F).
    destruct (package_prefix a q y Sp Lo F') as (E & M). rewrite build_dot. cbn [evaluate emit]. rewrite E. cbn [i_type i_unres unresolved]. rewrite L. split; [reflexivity|].
    intros inp. rewrite M. reflexivity.
Qed.
End Packages.

Lemma type_path_cons s : exists x l, type_path s = x :: l.
Proof. unfold type_path. destruct (fst s); cbn; eauto. Qed.
Lemma const_path_cons s : exists x l, const_path s = x :: l.
Proof. unfold const_path. destruct (fst s); cbn; eauto. Qed.

(** ** Values *)
Context (w : world) (p_global : list string -> option pyval) (p_slot : nat -> option value) (p_mask : symbol -> bool).
Local Notation ev := (py_eval S P w p_global p_slot p_mask).

Lemma path_value x l v : path_stands P p_global (x :: l) v -> l <> [] -> ev (path x l) = Some v.
Proof.
  intros (E & H & N) L. cbn in H.
  assert (A : forall m l1 p, ev p = Some (PModule l1) -> m <> [] -> (forall a b, m = a ++ b -> b <> [] -> p_global (l1 ++ a) = None) -> p_global (l1 ++ m) = Some v -> ev (fold_left PAttr m p) = Some v).
  { clear - p_global. induction m as [|y m IH]; intros l1 p Ep M Nn G; [contradiction|]. cbn [fold_left]. destruct m as [|z m].
    - cbn [fold_left py_eval]. rewrite Ep. cbn [getattr]. rewrite G. reflexivity.
    - apply (IH (l1 ++ [y])); [|discriminate| |].
      + cbn [py_eval]. rewrite Ep. cbn [getattr]. rewrite (Nn [y] (z :: m)); [reflexivity|reflexivity|discriminate].
      + intros a b Eab B. rewrite <- app_assoc. apply (Nn (y :: a) b); [rewrite Eab; reflexivity|exact B].
      + rewrite <- app_assoc. exact G. }
  apply (A l [x]); [|exact L| |exact E].
  - cbn [py_eval]. destruct (String.eqb_spec x (p_prefix P)); [contradiction|reflexivity].
  - intros a b Eab B. apply (N (x :: a) b); [rewrite Eab; reflexivity|exact B].
Qed.
Lemma stands_tokens l v : path_stands P p_global l v -> (exists x y m, l = x :: y :: m) -> exists p, Prim (ModelPaths.dotted l) p /\ joined (ModelPaths.dotted l) /\ ev p = Some v.
Proof.
  intros H (x & y & m & ->). exists (path x (y :: m)). destruct (prim_path (y :: m) x) as (A & B). split; [exact A|]. split; [exact B|]. apply path_value; [exact H|discriminate].
Qed.
Lemma type_path_two s : exists x y m, type_path s = x :: y :: m.
Proof. unfold type_path. destruct (fst s) as [|a [|b t]]; cbn; eauto. Qed.
Lemma const_path_two s : exists x y m, const_path s = x :: y :: m.
Proof. unfold const_path. destruct (fst s) as [|a [|b t]]; cbn; eauto. Qed.

Context (G : generated S P w p_global p_slot p_mask) (W : world_ok S w).

Lemma attribute c x m n a : assoc x (d_members S c) = Some m -> In (n, a) (member_attributes (d_choice S c) (x, m)) -> assoc n (attributes S c) = Some a.
Proof.
  intros A I. apply in_assoc; [apply (g_attributes _ _ _ _ _ _ G)|]. unfold attributes. apply in_or_app. right. apply in_flat_map. exists (x, m). split; [exact (assoc_in _ _ _ A)|exact I].
Qed.
Lemma right_value o x m v : assoc x (d_members S (w_class w o)) = Some m -> (forall t, m <> Func t) -> w_field w o x = Some v ->
  getattr S w p_global p_slot p_mask (PV (VObj o)) (right_name m x) = Some (PV v).
Proof.
  intros A N F. cbn [getattr]. destruct m as [t|t|t]; [| |exfalso; eapply N; reflexivity].
  - cbn [right_name]. destruct (d_choice S (w_class w o)) eqn:C.
    + rewrite (attribute _ x _ (conv property_name x) (Slot) A) by (rewrite C; left; reflexivity). rewrite (g_slot _ _ _ _ _ _ G o x t v C A F). reflexivity.
    + rewrite (attribute _ x _ (conv property_name x) (Get x) A) by (rewrite C; left; reflexivity). rewrite F. reflexivity.
  - cbn [right_name]. rewrite (attribute _ x _ (conv property_name x) (Get x) A) by (left; reflexivity). rewrite F. reflexivity.
Qed.
Lemma left_value x m v : assoc x (d_members S (w_class w (w_self w))) = Some m -> (forall t, m <> Func t) -> w_field w (w_self w) x = Some v ->
  getattr S w p_global p_slot p_mask (PV (VObj (w_self w))) (left_name P m x) = Some (PV v).
Proof.
  intros A N F. pose proof (right_value _ _ _ _ A N F) as Rv. pose proof (g_style _ _ _ _ _ _ G) as St. rewrite <- (ok_self _ _ W) in St. unfold left_name.
  destruct m as [t|t|t]; [| |exfalso; eapply N; reflexivity].
  - destruct (p_style P).
    + exact Rv.
    + cbn [getattr]. rewrite (attribute _ x _ (conv member_name x) (Get x) A) by (rewrite St; right; left; reflexivity). rewrite F. reflexivity.
    + cbn [getattr].
      assert (Sl : assoc "_choice" (attributes S (w_class w (w_self w))) = Some Slot).
      { apply in_assoc; [apply (g_attributes _ _ _ _ _ _ G)|]. unfold attributes. rewrite St. left. reflexivity. }
      rewrite Sl. rewrite (g_slot _ _ _ _ _ _ G _ x t v St A F). reflexivity.
  - destruct (p_style P); [exact Rv| |]; cbn [getattr]; rewrite (attribute _ x _ (conv member_name x) (Get x) A) by (right; left; reflexivity); rewrite F; reflexivity.
Qed.
Lemma method_value o x t : assoc x (d_members S (w_class w o)) = Some (Func t) -> getattr S w p_global p_slot p_mask (PV (VObj o)) (conv function_name x) = Some (PMethod o x).
Proof. intros A. cbn [getattr]. rewrite (attribute _ x _ (conv function_name x) (Method x) A) by (left; reflexivity). reflexivity. Qed.
Lemma item_value b x r : p_mask b = false -> assoc x (d_items S b) = Some r -> getattr S w p_global p_slot p_mask (PClass b) (item_name x r) = Some (PV (VItem b x)).
Proof.
  intros M A. cbn [getattr]. rewrite M. rewrite (in_assoc (item_name x r) (class_attributes S b) x); [reflexivity|apply (g_items _ _ _ _ _ _ G)|].
  apply assoc_in in A. apply (in_map (fun xr => (item_name (fst xr) (snd xr), fst xr))) in A. exact A.
Qed.
Lemma mask_value b x r : p_mask b = true -> assoc x (d_items S b) = Some r ->
  getattr S w p_global p_slot p_mask (PClass b) "Values" = Some (PValues b) /\ getattr S w p_global p_slot p_mask (PValues b) (value_name x) = Some (PV (VItem b x)).
Proof.
  intros M A. cbn [getattr]. rewrite M. split; [reflexivity|]. rewrite (in_assoc (value_name x) (values_attributes S b) x); [reflexivity|apply (g_items _ _ _ _ _ _ G)|].
  apply assoc_in in A. apply (in_map (fun xr => (value_name (fst xr), fst xr))) in A. exact A.
Qed.
Lemma find_member x m : find S x = Some (InType m) -> assoc x (d_members S (d_self S)) = Some m.
Proof.
  unfold find. destruct (d_visible S x).
  - destruct (assoc x (d_members S (d_self S))); [intros [= ->]; reflexivity|]. destruct (d_labels S) as [[]|]; try discriminate; destruct (assoc x _); discriminate.
  - destruct (d_labels S) as [[]|]; try discriminate; destruct (assoc x _); discriminate.
Qed.
Lemma find_label x b : find S x = Some (Item b) \/ find S x = Some (MaskValue b) ->
  (find S x = Some (Item b) /\ d_labels S = Some (TyEnum b) \/ find S x = Some (MaskValue b) /\ d_labels S = Some (TyMask b)) /\ exists r, assoc x (d_items S b) = Some r.
Proof.
  unfold find. destruct (if d_visible S x then _ else _); [intros [H|H]; discriminate|].
  destruct (d_labels S) as [[ | |s|s| |]|]; try (intros [H|H]; discriminate); destruct (assoc x (d_items S s)) eqn:E; intros [H|H]; try discriminate; injection H as ->; split; eauto.
Qed.

(** What holds of the type the compiler gives to an expression *)
Definition typed (i : info) (v : value) : Prop :=
  i_value i = true /\ i_func i = None /\
  match i_type i with
  | Some t => has_type w v t /\ i_elem i = match t with TyArr u => Some u | _ => None end /\ i_int i = match t with TyInt => true | _ => false end
  | None => (exists z, v = VInt z) /\ i_int i = true
  end.
Definition means_code (e : ptree) (ts : list tok) (v : value) : Prop :=
  exists p, Left ts p /\ (primary e = true -> Prim ts p) /\ joined ts /\ ev p = Some (PV v).
Lemma code_prim e ts v p : Prim ts p -> joined ts -> ev p = Some (PV v) -> means_code e ts v.
Proof. intros A B C. exists p. split; [apply prim_left; exact A|]. auto. Qed.
Lemma typed_reference v t : has_type w v t -> (forall u, t <> TyArr u) -> typed (by_reference t) v.
Proof. intros H N. split; [reflexivity|]. split; [reflexivity|]. split; [exact H|]. split; [|reflexivity]. cbn. destruct t; try reflexivity. exfalso. eapply N. reflexivity. Qed.
Lemma typed_instantiation v t : has_type w v t -> typed (by_instantiation t) v.
Proof. intros H. split; [reflexivity|]. split; [reflexivity|]. split; [exact H|]. split; reflexivity. Qed.
Lemma typed_int i z : typed i (VInt z) -> i_int i = true.
Proof. intros (_ & _ & T). destruct (i_type i); [|tauto]. destruct T as (T & _ & E). rewrite E. inversion T. reflexivity. Qed.
Context (NA : no_arrays S).
Lemma typed_member o x m v : assoc x (d_members S (w_class w o)) = Some m -> (forall t, m <> Func t) -> w_field w o x = Some v -> typed (member_info m) v.
Proof.
  intros A N F. destruct m as [t|t|t]; [| |exfalso; eapply N; reflexivity]; cbn [member_info].
  - apply typed_instantiation. apply (ok_field _ _ W o x _ t v A); auto.
  - apply typed_reference; [apply (ok_field _ _ W o x _ t v A); auto|]. intros u. apply (NA (w_class w o) x). auto.
Qed.

Context (l : list import) (R : resolve_imports (d_packages S) l = Some (d_imports S)) (NC : names_checked (d_packages S)).

Theorem paths e v : means S w e v -> forall b, shaped e = true ->
  exists i, evaluate S (fst (build b e)) = Some i /\ typed i v /\ forall inp, means_code e (emit S P inp (fst (build b e))) v.
Proof.
  induction 1 as [z|a c y z Ma IHa Mc IHc|a v Ma IH|x m v F N E|x t v F E|a o x m v Ma IH A N E|a o x t v Ma IH A E|a j ls z v Ma IHa Mj IHj Z Nt|e s v Re K E|a s bb x r Re K B A|a s bb x r Re K B A|x bb F];
    intros b Sh.
  - exists integer. split; [reflexivity|]. split; [repeat split; cbn; eauto|]. intros inp. apply code_prim with (PNum z); [apply prim_num|reflexivity|reflexivity].
  - destruct (build_plus b a c) as (d & Bd). rewrite Bd in *. cbn [evaluate emit]. cbn [shaped] in Sh. apply andb_prop in Sh. destruct Sh as (Sh & Sc). apply andb_prop in Sh. destruct Sh as (Sa & Pc).
    destruct (IHa b Sa) as (ia & Ea & Ta & Ca). destruct (IHc d Sc) as (ic & Ec & Tc & Cc). rewrite Ea, Ec, (typed_int _ _ Ta), (typed_int _ _ Tc). exists integer. split; [reflexivity|].
    split; [repeat split; cbn; eauto|]. intros inp. destruct (Ca inp) as (p & L1 & _ & J1 & V1). destruct (Cc inp) as (q & _ & L2 & J2 & V2). exists (PPlus p q).
    split; [apply left_plus; auto|]. split; [discriminate|]. split; [apply joined_op; auto|]. cbn [py_eval]. rewrite V1, V2. reflexivity.
  - rewrite build_paren in *. cbn [evaluate emit]. destruct (IH b Sh) as (i & Ei & T & C). exists i. split; [exact Ei|]. split; [exact T|]. intros inp. destruct (C inp) as (p & L1 & _ & J & V).
    apply code_prim with p; [apply prim_paren; exact L1| |exact V]. change (KLp :: emit S P inp (fst (build b a)) ++ [KRp]) with ([] ++ KLp :: (emit S P inp (fst (build b a)) ++ [KRp])).
    apply joined_op; [reflexivity|reflexivity|]. apply joined_op; [reflexivity|exact J|reflexivity].
  - cbn [build fst evaluate emit]. rewrite F. exists (member_info m). split; [reflexivity|]. apply find_member in F. rewrite <- (ok_self _ _ W) in F. split; [exact (typed_member _ _ _ _ F N E)|]. intros inp.
    apply code_prim with (PAttr (PName (p_prefix P)) (left_name P m x)); [apply (prim_attr [KName (p_prefix P)]); apply prim_name|reflexivity|].
    cbn [py_eval]. rewrite String.eqb_refl. exact (left_value _ _ _ F N E).
  - rewrite build_call. cbn [build fst evaluate emit]. rewrite F. cbn [member_info function i_func]. exists (by_reference t). split; [reflexivity|]. apply find_member in F. rewrite <- (ok_self _ _ W) in F.
    split; [apply typed_reference; [exact (ok_func _ _ W _ _ _ _ F E)|]; intros u; apply (NA (w_class w (w_self w)) x); auto|]. intros inp.
    apply code_prim with (PCall (PAttr (PName (p_prefix P)) (conv function_name x))); [apply prim_call; apply (prim_attr [KName (p_prefix P)]); apply prim_name|reflexivity|].
    cbn [py_eval]. rewrite String.eqb_refl. rewrite (method_value _ _ _ F). rewrite E. reflexivity.
  - rewrite build_dot. cbn [evaluate emit]. cbn [shaped] in Sh. apply andb_prop in Sh. destruct Sh as (Pa & Sa).
    destruct (IH true Sa) as (ia & Ea & (_ & _ & T) & C). rewrite Ea. destruct (i_type ia) as [t|] eqn:Ti; [|destruct T as ((z & T) & _); discriminate T]. destruct T as (T & _). inversion T; subst; clear T.
    rewrite A. exists (member_info m). split; [reflexivity|]. split; [exact (typed_member _ _ _ _ A N E)|]. intros inp. destruct (C inp) as (p & _ & L1 & J & V).
    apply code_prim with (PAttr p (right_name m x)); [apply prim_attr; auto|apply joined_op; [reflexivity|exact J|reflexivity]|].
    cbn [py_eval]. rewrite V. exact (right_value _ _ _ _ A N E).
  - rewrite build_call, build_dot. cbn [evaluate emit]. cbn [shaped primary] in Sh. apply andb_prop in Sh. destruct Sh as (_ & Sh). apply andb_prop in Sh. destruct Sh as (Pa & Sa).
    destruct (IH true Sa) as (ia & Ea & (_ & _ & T) & C). rewrite Ea. destruct (i_type ia) as [u|] eqn:Ti; [|destruct T as ((z & T) & _); discriminate T]. destruct T as (T & _). inversion T; subst; clear T.
    rewrite A. cbn [member_info function i_func]. exists (by_reference t). split; [reflexivity|].
    split; [apply typed_reference; [exact (ok_func _ _ W _ _ _ _ A E)|]; intros u; apply (NA (w_class w o) x); auto|]. intros inp. destruct (C inp) as (p & _ & L1 & J & V). cbn [right_name].
    apply code_prim with (PCall (PAttr p (conv function_name x))); [apply prim_call; apply prim_attr; auto| |].
    + rewrite <- app_assoc. apply joined_op; [reflexivity|exact J|reflexivity].
    + cbn [py_eval]. rewrite V. rewrite (method_value _ _ _ A). rewrite E. reflexivity.
  - destruct (build_item b a j) as (d & Bd). rewrite Bd. cbn [evaluate emit]. cbn [shaped] in Sh. apply andb_prop in Sh. destruct Sh as (Sh & Sj). apply andb_prop in Sh. destruct Sh as (Pa & Sa).
    destruct (IHa b Sa) as (ia & Ea & (_ & _ & T) & Ca). destruct (IHj d Sj) as (ij & Ej & Tj & Cj). rewrite Ea, Ej, (typed_int _ _ Tj).
    destruct (i_type ia) as [t|]; [|destruct T as ((z' & T) & _); discriminate T]. destruct T as (T & El & _). inversion T as [| | | | | |l0 u Hu]; subst. rewrite El. exists (by_instantiation u). split; [reflexivity|].
    split; [apply typed_instantiation; eauto using nth_error_In|]. intros inp. destruct (Ca inp) as (p & _ & L1 & J1 & V1). destruct (Cj inp) as (q & L2 & _ & J2 & V2).
    apply code_prim with (PItem p q); [apply prim_item; auto| |].
    + apply joined_op; [reflexivity|exact J1|]. apply joined_op; [reflexivity|exact J2|reflexivity].
    + cbn [py_eval]. rewrite V1, V2. cbn zeta. destruct (Z.ltb_spec z 0); [lia|]. cbv iota. destruct (Z.ltb_spec z 0); [lia|]. rewrite Nt. reflexivity.
  - destruct (refers_evaluates l R NC e s Re b) as (E1 & E2). rewrite E1. unfold package_info. rewrite K. exists (by_instantiation (d_const S s)). split; [reflexivity|].
    split; [apply typed_instantiation; exact (ok_const _ _ W _ _ K E)|]. intros inp. rewrite E2. unfold symbol_tokens. rewrite K.
    destruct (stands_tokens _ _ (g_const _ _ _ _ _ _ G s v K E) (const_path_two s)) as (p & A & J & V). exact (code_prim _ _ _ _ A J V).
  - rewrite build_dot. destruct (refers_evaluates l R NC a s Re true) as (E1 & E2). cbn [evaluate emit]. rewrite E1. unfold package_info. rewrite K. cbn [type_id i_type]. rewrite B, A.
    exists (by_reference (TyEnum bb)). split; [reflexivity|]. split; [apply typed_reference; [constructor|discriminate]|]. intros inp. rewrite E2. unfold symbol_tokens, item_tokens. rewrite K, A.
    destruct (stands_tokens _ _ (g_type _ _ _ _ _ _ G s bb K (or_introl B)) (type_path_two s)) as (p & Ap & J & V).
    apply code_prim with (PAttr p (item_name x r)); [apply prim_attr; exact Ap|apply joined_op; [reflexivity|exact J|reflexivity]|].
    cbn [py_eval]. rewrite V. apply item_value; [|exact A]. apply (g_enum _ _ _ _ _ _ G). eauto.
  - rewrite build_dot. destruct (refers_evaluates l R NC a s Re true) as (E1 & E2). cbn [evaluate emit]. rewrite E1. unfold package_info. rewrite K. cbn [type_id i_type]. rewrite B, A.
    exists (by_reference (TyMask bb)). split; [reflexivity|]. split; [apply typed_reference; [constructor|discriminate]|]. intros inp. rewrite E2. unfold symbol_tokens, value_tokens. rewrite K.
    destruct (stands_tokens _ _ (g_type _ _ _ _ _ _ G s bb K (or_intror B)) (type_path_two s)) as (p & Ap & J & V).
    destruct (mask_value bb x r) as (V1 & V2); [apply (g_mask _ _ _ _ _ _ G); eauto|exact A|].
    apply code_prim with (PAttr (PAttr p "Values") (value_name x)).
    + change (KDot :: [KName "Values"; KDot; KName (value_name x)]) with ([KDot; KName "Values"] ++ [KDot; KName (value_name x)]). rewrite app_assoc. apply prim_attr, prim_attr. exact Ap.
    + apply joined_op; [reflexivity|exact J|reflexivity].
    + cbn [py_eval]. rewrite V, V1. exact V2.
  - destruct (find_label x bb F) as (C & r & A). destruct C as [(F' & La)|(F' & La)]; cbn [build fst evaluate emit]; rewrite F'.
    + exists (by_reference (TyEnum bb)). split; [reflexivity|]. split; [apply typed_reference; [constructor|discriminate]|]. intros inp.
      destruct (stands_tokens _ _ (g_label _ _ _ _ _ _ G bb (or_introl La)) (type_path_two bb)) as (p & Ap & J & V). unfold item_tokens. rewrite A.
      apply code_prim with (PAttr p (item_name x r)); [apply prim_attr; exact Ap|apply joined_op; [reflexivity|exact J|reflexivity]|].
      cbn [py_eval]. rewrite V. apply item_value; [|exact A]. apply (g_enum _ _ _ _ _ _ G). eauto.
    + exists (by_reference (TyMask bb)). split; [reflexivity|]. split; [apply typed_reference; [constructor|discriminate]|]. intros inp.
      destruct (stands_tokens _ _ (g_label _ _ _ _ _ _ G bb (or_intror La)) (type_path_two bb)) as (p & Ap & J & V).
      destruct (mask_value bb x r) as (V1 & V2); [apply (g_mask _ _ _ _ _ _ G); eauto|exact A|]. unfold value_tokens.
      apply code_prim with (PAttr (PAttr p "Values") (value_name x)).
      * change (KDot :: [KName "Values"; KDot; KName (value_name x)]) with ([KDot; KName "Values"] ++ [KDot; KName (value_name x)]). rewrite app_assoc. apply prim_attr, prim_attr. exact Ap.
      * apply joined_op; [reflexivity|exact J|reflexivity].
      * cbn [py_eval]. rewrite V, V1. exact V2.
Qed.

Theorem path_code e v : means S w e v -> shaped e = true -> accepts S e /\ exists p, is_expression (emitted S P e) p /\ ev p = Some (PV v).
Proof.
  intros M Sh. destruct (paths e v M false Sh) as (i & E & T & C). split; [exists i; split; [exact E|apply T]|]. destruct (C false) as (p & L & _ & J & V). exists p. split; [|exact V].
  unfold emitted. rewrite J. exact (left_expression _ _ L).
Qed.
(** An expression has one meaning. *)
Theorem one_meaning e v u : shaped e = true -> means S w e v -> means S w e u -> v = u.
Proof.
  intros Sh A B. destruct (path_code e v A Sh) as (_ & p & Ep & Vp). destruct (path_code e u B Sh) as (_ & q & Eq & Vq). rewrite (one_expression _ _ _ Ep Eq) in Vp. congruence.
Qed.
End Proofs.

(** ** Accepted expressions whose dots follow types, values of types and packages are emitted as expressions *)
Section Valid.
Context (S : schema) (P : policy).
Definition code (e : ptree) (ts : list tok) : Prop := exists p, Left ts p /\ (primary e = true -> Prim ts p) /\ joined ts.
Lemma code_of e ts p : Prim ts p -> joined ts -> code e ts.
Proof. intros A B. exists p. split; [apply prim_left; exact A|]. auto. Qed.
Lemma code_attr e a ts x : primary a = true -> code a ts -> code e (ts ++ [KDot; KName x]).
Proof. intros Pa (p & _ & H & J). apply code_of with (PAttr p x); [apply prim_attr; auto|apply joined_op; [reflexivity|exact J|reflexivity]]. Qed.
Lemma code_attr2 e a ts x y : primary a = true -> code a ts -> code e (ts ++ [KDot; KName x; KDot; KName y]).
Proof.
  intros Pa (p & _ & H & J). apply code_of with (PAttr (PAttr p x) y); [|apply joined_op; [reflexivity|exact J|reflexivity]].
  change [KDot; KName x; KDot; KName y] with ([KDot; KName x] ++ [KDot; KName y]). rewrite app_assoc. apply prim_attr, prim_attr. auto.
Qed.
Lemma code_dotted e l : l <> [] -> code e (ModelPaths.dotted l).
Proof. destruct l as [|x l]; [contradiction|]. intros _. destruct (prim_path l x) as (A & B). exact (code_of _ _ _ A B). Qed.
Lemma type_path_ne s : type_path s <> [].
Proof. destruct (type_path_cons s) as (x & l & ->). discriminate. Qed.
Lemma code_symbol e s : code e (symbol_tokens S s).
Proof.
  unfold symbol_tokens. assert (A : code e (ModelPaths.dotted (type_path s))) by apply code_dotted, type_path_ne. destruct (kind_of S s) as [[]|]; try exact A.
  apply code_dotted. destruct (const_path_cons s) as (x & l & ->). discriminate.
Qed.
Definition resolved (i : info) : Prop := i_unres i = [].

Lemma valid e : forall b i, shaped e = true -> plain S e -> evaluate S (fst (build b e)) = Some i ->
  (exists q, q <> [] /\ i = unresolved q /\ (package_path S e = true -> emit S P true (fst (build b e)) = [])) \/ (resolved i /\ forall inp, code e (emit S P inp (fst (build b e)))).
Proof.
  induction e as [x|z|a IH|a IH|a IHa j IHj|a IH x|a IHa c IHc]; intros b i Sh Pl Ev.
  - cbn [build fst evaluate emit package_path] in *. destruct (find S x) as [[m|s|s]|] eqn:F.
    + injection Ev as <-. right. split; [destruct m; reflexivity|]. intros inp. apply code_of with (PAttr (PName (p_prefix P)) (left_name P m x)); [apply (prim_attr [KName (p_prefix P)]); apply prim_name|reflexivity].
    + injection Ev as <-. right. split; [reflexivity|]. intros inp. apply (code_attr (XId x) (XId x)); [reflexivity|]. apply code_dotted, type_path_ne.
    + injection Ev as <-. right. split; [reflexivity|]. intros inp. apply (code_attr2 (XId x) (XId x)); [reflexivity|]. apply code_dotted, type_path_ne.
    + destruct (look S [] x) as [s| |]; [| |discriminate].
      * right. split; [|intros inp; apply code_symbol]. unfold package_info in Ev. destruct (kind_of S s) as [[]|]; try discriminate Ev; injection Ev as <-; reflexivity.
      * destruct b; [|discriminate]. injection Ev as <-. left. exists [x]. split; [discriminate|]. auto.
  - cbn in Ev. injection Ev as <-. right. split; [reflexivity|]. intros inp. apply code_of with (PNum z); [apply prim_num|reflexivity].
  - rewrite build_paren in *. cbn [evaluate emit] in *. destruct (IH b i Sh Pl Ev) as [(q & Q & -> & _)|(Re & C)].
    + left. exists q. split; [exact Q|]. split; [reflexivity|]. discriminate.
    + right. split; [exact Re|]. intros inp. destruct (C inp) as (p & L & _ & J). apply code_of with p; [apply prim_paren; exact L|].
      change (KLp :: emit S P inp (fst (build b a)) ++ [KRp]) with ([] ++ KLp :: (emit S P inp (fst (build b a)) ++ [KRp])).
      apply joined_op; [reflexivity|reflexivity|]. apply joined_op; [reflexivity|exact J|reflexivity].
  - rewrite build_call in *. cbn [evaluate emit] in *. cbn [shaped] in Sh. apply andb_prop in Sh. destruct Sh as (Pa & Sa). destruct (evaluate S (fst (build b a))) as [ia|] eqn:Ea; [|discriminate].
    destruct (i_func ia) as [t|] eqn:Fa; [|discriminate]. injection Ev as <-. destruct (IH b ia Sa Pl Ea) as [(q & _ & -> & _)|(_ & C)]; [discriminate|]. right. split; [reflexivity|]. intros inp.
    destruct (C inp) as (p & _ & H & J). apply code_of with (PCall p); [apply prim_call; auto|apply joined_op; [reflexivity|exact J|reflexivity]].
  - destruct (build_item b a j) as (d & Bd). rewrite Bd in *. cbn [evaluate emit] in *. cbn [shaped] in Sh. apply andb_prop in Sh. destruct Sh as (Sh & Sj). apply andb_prop in Sh. destruct Sh as (Pa & Sa).
    destruct Pl as (Pla & Plj). destruct (evaluate S (fst (build b a))) as [ia|] eqn:Ea; [|discriminate]. destruct (evaluate S (fst (build d j))) as [ij|] eqn:Ej; [|discriminate].
    destruct (i_elem ia) as [u|] eqn:El; [|discriminate]. destruct (i_int ij) eqn:Ij; [|discriminate]. injection Ev as <-. right. split; [reflexivity|]. intros inp.
    destruct (IHa b ia Sa Pla Ea) as [(q & _ & -> & _)|(_ & Ca)]; [discriminate|]. destruct (IHj d ij Sj Plj Ej) as [(q & _ & -> & _)|(_ & Cj)]; [discriminate|].
    destruct (Ca inp) as (p & _ & L1 & J1). destruct (Cj inp) as (r & L2 & _ & J2). apply code_of with (PItem p r); [apply prim_item; auto|].
    apply joined_op; [reflexivity|exact J1|]. apply joined_op; [reflexivity|exact J2|reflexivity].
  - rewrite build_dot in *. cbn [evaluate emit package_path] in *. cbn [shaped] in Sh. apply andb_prop in Sh. destruct Sh as (Pa & Sa). destruct Pl as (Pl & D).
    destruct (evaluate S (fst (build true a))) as [ia|] eqn:Ea; [|discriminate]. destruct (IH true ia Sa Pl Ea) as [(q & Q & -> & Em)|(Re & C)].
    + cbn [i_type i_unres unresolved] in *. destruct D as [(Pp & _)|(i' & t & [= <-] & T)]; [|discriminate T]. rewrite (Em Pp). destruct (look S (d_top S ++ q) x) as [s| |]; [| |discriminate].
      * right. split; [unfold package_info in Ev; destruct (kind_of S s) as [[]|]; try discriminate Ev; injection Ev as <-; reflexivity|]. intros inp. apply code_symbol.
      * destruct b; [|discriminate]. injection Ev as <-. left. exists (q ++ [x]). split; [destruct q; discriminate|]. split; [reflexivity|]. intros _. reflexivity.
    + destruct (i_type ia) as [t|] eqn:T.
      * right. destruct t as [| |s|s|c|u]; try discriminate Ev.
        -- destruct (assoc x (d_items S s)) eqn:A; [|discriminate]. injection Ev as <-. split; [reflexivity|]. intros inp. apply (code_attr _ a); auto.
        -- destruct (assoc x (d_items S s)) eqn:A; [|discriminate]. injection Ev as <-. split; [reflexivity|]. intros inp. apply (code_attr2 _ a); auto.
        -- destruct (assoc x (d_members S c)) as [m|] eqn:A; [|discriminate]. injection Ev as <-. split; [destruct m; reflexivity|]. intros inp. apply (code_attr _ a); auto.
      * exfalso. destruct D as [(Pp & q & [= ->])|(i' & t & [= <-] & T')]; [|congruence]. clear - Ea Re Pp Pl.
        cbn in Re. unfold resolved in Re. cbn in Re. subst q. destruct a as [y|z|a|a|a c|a y|a c]; try discriminate Pp.
        -- cbn [package_path] in Pp. destruct (find S y) eqn:F; [discriminate|]. cbn [build fst evaluate] in Ea. rewrite F in Ea. destruct (look S [] y) as [s| |]; [|discriminate|discriminate].
           unfold package_info in Ea. destruct (kind_of S s) as [[]|]; try discriminate Ea.
        -- rewrite build_dot in Ea. cbn [evaluate] in Ea. destruct (evaluate S (fst (build true a))) as [ia|]; [|discriminate]. destruct (i_type ia) as [[]|].
           all: try (destruct (assoc y _) as [[]|]; discriminate Ea). all: try discriminate Ea.
           destruct (look S (d_top S ++ i_unres ia) y) as [s| |]; [unfold package_info in Ea; destruct (kind_of S s) as [[]|]; discriminate Ea| |discriminate Ea].
           injection Ea as Ea. destruct (i_unres ia); discriminate Ea.
  - destruct (build_plus b a c) as (d & Bd). rewrite Bd in *. cbn [evaluate emit] in *. cbn [shaped] in Sh. apply andb_prop in Sh. destruct Sh as (Sh & Sc). apply andb_prop in Sh. destruct Sh as (Sa & Pc).
    destruct Pl as (Pla & Plc). destruct (evaluate S (fst (build b a))) as [ia|] eqn:Ea; [|discriminate]. destruct (evaluate S (fst (build d c))) as [ic|] eqn:Ec; [|discriminate].
    destruct (i_int ia) eqn:Ia; [|discriminate]. destruct (i_int ic) eqn:Ic; [|discriminate]. injection Ev as <-. right. split; [reflexivity|]. intros inp.
    destruct (IHa b ia Sa Pla Ea) as [(q & _ & -> & _)|(_ & Ca)]; [discriminate|]. destruct (IHc d ic Sc Plc Ec) as [(q & _ & -> & _)|(_ & Cc)]; [discriminate|].
    destruct (Ca inp) as (p & L1 & _ & J1). destruct (Cc inp) as (r & _ & L2 & J2). exists (PPlus p r). split; [apply left_plus; auto|]. split; [discriminate|]. apply joined_op; auto.
Qed.
Theorem valid_code e : shaped e = true -> plain S e -> accepts S e -> exists p, is_expression (emitted S P e) p /\ forall q, is_expression (emitted S P e) q -> q = p.
Proof.
  intros Sh Pl (i & E & V). destruct (valid e false i Sh Pl E) as [(q & _ & -> & _)|(_ & C)]; [discriminate V|]. destruct (C false) as (p & L & _ & J).
  assert (X : is_expression (emitted S P e) p) by (unfold emitted; rewrite J; exact (left_expression _ _ L)). exists p. split; [exact X|]. intros q Q. exact (one_expression _ _ _ Q X).
Qed.
End Valid.
